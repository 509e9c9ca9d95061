(** C53, sampling. Reference: averaging, white, draws (Spec/SamplingSpec.v), right (Spec/RandomSpec.v), noisy (Spec/GPSpec.v). *)
From Coq Require Import Reals Arith List String.
From Verif Require Import Base.Sums Base.Mat Base.PSD Model.PyDict Model.State Model.Arrays Model.Kernels Model.Operations Model.LinAlg
  Model.GPR Model.SGPR Model.Sampling Spec.KernelSpec Spec.RandomSpec Spec.SamplingSpec Spec.GPSpec Proofs.KernelPropLemmas
  Proofs.JetPSD Proofs.SamplingFacts.
Import ListNotations.
Open Scope R_scope.

(** C53: sample draws n_samples rows with the mean and covariance it is given, for a mean of one column (p = 0). For
    several columns they are those of the last one, drawn with the key of the last split *)
Theorem C53_moments : forall W (E : (W -> R) -> R), averaging E -> forall la, linalg_ok la ->
  forall (normal : W -> key -> nat -> nat -> Mat) k n p v C s, sym n C -> pd n C ->
  white E s n (fun w => normal w (right (S p) k) s n) ->
  draws E s n (fun i => v i p) C (fun w => sample la (normal w) k (Mean2 n (S p) v) (Cov n C) s).
Proof. exact (fun W => @sample_draws W). Qed.
Print Assumptions C53_moments.
Example C53_white : forall r n, averaging (sign_E r n) /\ white (sign_E r n) r n (fun M => M).
Proof. exact (fun r n => conj (sign_averaging r n) (sign_white r n)). Qed.
(** C53 (refutation): a mean with several columns gives samples for the last one only *)
Theorem C53_columns_refuted : forall la normal k n p v v' C s, (forall i, (i < n)%nat -> v i p = v' i p) -> exists X X',
  sample la normal k (Mean2 n (S p) v) (Cov n C) s = Ok (Sampled [s; n] X) /\
  sample la normal k (Mean2 n (S p) v') (Cov n C) s = Ok (Sampled [s; n] X') /\ forall t i, (i < n)%nat -> X t i = X' t i.
Proof. exact sample_last_column. Qed.
Print Assumptions C53_columns_refuted.
(** C53 (refutation): with a one-dimensional mean a single sample comes back whatever the number asked for *)
Theorem C53_number_refuted : forall la normal k n v C s, exists z : Mat, sample la normal k (Mean1 n v) (Cov n C) s = Ok (Sampled [n] z).
Proof. exact sample_vector. Qed.
Print Assumptions C53_number_refuted.
(** C53: a covariance of another dimension, a mean without columns *)
Theorem C53_mismatch : forall la normal k n p v cov s, c_dim cov <> n -> sample la normal k (Mean2 n (S p) v) cov s = Err ValueError.
Proof. exact sample_mismatch. Qed.
Print Assumptions C53_mismatch.
(** C53: the prior of GPR *)
Theorem C53_prior : forall W (E : (W -> R) -> R), averaging E -> forall la, linalg_ok la ->
  forall (normal : W -> key -> nat -> nat -> Mat) nf k, all_atoms (fun _ a => psd_atom a) k ->
  forall key n sigma x s, (0 < nf)%nat -> white E s n (fun w => normal w (right nf key) s n) ->
  draws E s n (fun _ => 0) (noisy sigma (kk nf k x x)) (fun w => gpr_sample_prior la (normal w) key n nf k sigma x s).
Proof. exact (fun W => @prior_gpr W). Qed.
Print Assumptions C53_prior.
(** C53: the prior of the sparse models has sigma where the noise variance is sigma^2 *)
Theorem C53_sparse_prior : forall W (E : (W -> R) -> R), averaging E -> forall la, linalg_ok la ->
  forall (normal : W -> key -> nat -> nat -> Mat) nf k, all_atoms (fun _ a => psd_atom a) k ->
  forall key n sigma x s, (0 < nf)%nat -> 0 <= sigma -> white E s n (fun w => normal w (right nf key) s n) ->
  draws E s n (fun _ => 0) (fun i j => kk nf k x x i j + (sigma + / 10 ^ 10) * delta i j)
    (fun w => sgpr_sample_prior la (normal w) key n nf k sigma x s).
Proof. exact (fun W => @prior_sgpr W). Qed.
Print Assumptions C53_sparse_prior.
(** C53 (refutation): so it is not the prior of the observations *)
Theorem C53_sparse_prior_refuted : forall W (E : (W -> R) -> R), averaging E -> forall la, linalg_ok la ->
  forall (normal : W -> key -> nat -> nat -> Mat) nf k, all_atoms (fun _ a => psd_atom a) k ->
  forall key n sigma x s, (0 < nf)%nat -> (0 < n)%nat -> (0 < s)%nat -> 0 < sigma -> sigma <> 1 ->
  white E s n (fun w => normal w (right nf key) s n) ->
  ~ draws E s n (fun _ => 0) (noisy sigma (kk nf k x x)) (fun w => sgpr_sample_prior la (normal w) key n nf k sigma x s).
Proof. exact prior_sgpr_not_noisy. Qed.
Print Assumptions C53_sparse_prior_refuted.
(** C53: posteriors: mean of the last output, covariance of predict plus 1e-10 *)
Theorem C53_posterior : forall W (E : (W -> R) -> R), averaging E -> forall la, linalg_ok la ->
  forall (normal : W -> key -> nat -> nat -> Mat) nf k, all_atoms (fun _ a => psd_atom a) k ->
  forall key m n o sigma xt x c mu s, white E s n (fun w => normal w (right (S o) key) s n) ->
  draws E s n (fun i => predict_dense m nf k sigma xt x c mu i o)
    (fun i j => predict_cov la m nf k sigma xt x i j + / 10 ^ 10 * delta i j)
    (fun w => sample_posterior la (normal w) key true (Ok (gpr_prediction la m n (S o) nf k sigma xt x c mu)) s).
Proof. exact (fun W => @posterior_gpr W). Qed.
Print Assumptions C53_posterior.
Theorem C53_sparse_posterior : forall W (E : (W -> R) -> R), averaging E -> forall la, linalg_ok la ->
  forall (normal : W -> key -> nat -> nat -> Mat) nf k, all_atoms (fun _ a => psd_atom a) k ->
  forall key m n o sigma xl x c mu s, white E s n (fun w => normal w (right (S o) key) s n) ->
  draws E s n (fun i => sg_predict_dense m nf k xl x c mu i o)
    (fun i j => sg_predict_cov la m n nf k sigma xl x i j + / 10 ^ 10 * delta i j)
    (fun w => sample_posterior la (normal w) key true (Ok (sgpr_prediction la m n (S o) nf k sigma xl x c mu)) s).
Proof. exact (fun W => @posterior_sgpr W). Qed.
Print Assumptions C53_sparse_posterior.
(** C53: derivatives of GPR: entry t * nd + u of a sample has the mean of the derivative u at the point t *)
Theorem C53_posterior_derivs : forall W (E : (W -> R) -> R), averaging E -> forall la, linalg_ok la ->
  forall (normal : W -> key -> nat -> nat -> Mat) nf k, all_atoms (fun _ a => psd_atom a) k -> wf nf k -> ls_nonzero k -> dgram_ok k ->
  forall key m n nv nd sigma xt jt x jac c mu s, white E s (n * nd) (fun w => normal w (right 1 key) s (n * nd)%nat) ->
  draws E s (n * nd) (fun i => predict_derivs_dense m n nf nv nd k sigma xt jt x jac c mu (i / nd)%nat (i mod nd)%nat)
    (fun i j => predict_derivs_cov la m n nf nv nd k sigma xt jt x jac i j + / 10 ^ 10 * delta i j)
    (fun w => sample_posterior la (normal w) key true (Ok (gpr_prediction_derivs la m n nf nv nd k sigma xt jt x jac c mu)) s).
Proof. exact (fun W => @posterior_derivs_gpr W). Qed.
Print Assumptions C53_posterior_derivs.
(** C53 (refutation): the prior of the derivatives cannot be sampled unless there is one derivative per point *)
Theorem C53_prior_derivs_refuted : forall la normal key n nf nv k sigma x jac s, (0 < nf)%nat ->
  (gpr_sample_prior_derivs la normal key n nf nv k sigma x jac s = Err ValueError <-> (0 < n)%nat /\ nv <> 1%nat) /\
  (sgpr_sample_prior_derivs la normal key n nf nv k sigma x jac s = Err ValueError <-> (0 < n)%nat /\ nv <> 1%nat).
Proof. exact prior_derivs_raise. Qed.
Print Assumptions C53_prior_derivs_refuted.
(** C53: an unfitted model has no posterior to sample, and the kind must be one of two *)
Theorem C53_unfitted : forall la normal key prediction s prior,
  model_sample "posterior" prior (sample_posterior la normal key false prediction s) = Err RuntimeError /\
  forall kind posterior, kind <> "prior"%string -> kind <> "posterior"%string -> model_sample kind prior posterior = Err ValueError.
Proof. exact unfitted_raises. Qed.
Print Assumptions C53_unfitted.
