(** C60: the likelihood computed without building the matrix. *)
From Coq Require Import Reals Arith List.
From Verif Require Import Base.Sums Base.Mat Base.PSD Model.PyDict Model.State Model.Arrays Model.Kernels Model.LinAlg Model.Operations
  Model.Priors Model.GPR Model.SGPR Model.GPRTD Model.Lanczos Model.Likelihood.
From Verif Require Import Spec.KernelSpec Spec.Det Spec.MVN Spec.GPSpec Spec.SparseSpec Spec.LanczosSpec Spec.TDSpec.
From Verif Require Import Proofs.KernelSym Proofs.KernelDerivs Proofs.JetPSD Proofs.GPRFacts Proofs.SGPRExamples Proofs.LikelihoodFacts Proofs.LikelihoodTD.
Import ListNotations.
Open Scope R_scope.

(** whatever is drawn, the only difference with the dense likelihood is the error of the log-determinant *)
Theorem C60_gpr_error : forall la, linalg_ok la -> forall eigh normal choose m nf k sigma x y mf, (0 < m)%nat ->
  all_atoms (fun _ a => psd_atom a) k -> sigma <> 0 -> forall rademacher ne nl key np kp,
  gpr_lml_iter la eigh rademacher normal choose ne nl key np kp m 1 nf k sigma x y mf
  = lml_dense la m 1 nf k sigma x y mf + (ln (det m (noisy sigma (kk nf k x x)))
      - logdet_key eigh rademacher normal (on_vector (Ax_lhs_fun m m nf k sigma x x true)) ne m nl key) / (2 * INR m).
Proof. exact gpr_error. Qed.
Print Assumptions C60_gpr_error.
Theorem C60_gpr_derivs_error : forall la, linalg_ok la -> forall eigh normal choose m nf nv k sigma x jac y mf, (0 < m * nv)%nat ->
  all_atoms (fun _ a => psd_atom a) k -> wf nf k -> ls_nonzero k -> dgram_ok k -> sigma <> 0 -> forall rademacher ne nl key np kp,
  gpr_lml_derivs_iter la eigh rademacher normal choose ne nl key np kp m nf nv k sigma x jac y mf
  = lml_derivs_dense la m nf nv k sigma x jac y mf + (ln (det (m * nv) (noisy sigma (d01kj m m nf nv nv k x x jac jac)))
      - logdet_key eigh rademacher normal (on_vector (Ax_derivs_lhs_fun m m nf nv nv k sigma x jac x jac true)) ne (m * nv) nl key) / (2 * INR (m * nv)).
Proof. exact gprd_error. Qed.
Print Assumptions C60_gpr_derivs_error.
Theorem C60_sgpr_error : forall la, linalg_ok la -> forall eigh normal m n nf k sigma xl x y mf M, (0 < n)%nat ->
  all_atoms (fun _ a => psd_atom a) k -> nystrom m n (kk nf k xl xl) (kk nf k xl x) M -> forall rademacher ne nl key,
  sgpr_lml_iter la eigh rademacher normal ne nl key m n 1 nf k sigma xl x y mf
  = sg_lml_dense la m n 1 nf k sigma xl x y mf + (ln (det n (noisy sigma M))
      - logdet_key eigh rademacher normal (on_vector (sg_Hx_fun la m n nf k sigma xl x)) ne n nl key) / (2 * INR n).
Proof. exact sgpr_error. Qed.
Print Assumptions C60_sgpr_error.

(** as many Lanczos steps as distinct eigenvalues: the mean over the probes is the dense likelihood *)
Theorem C60_gpr_unbiased : forall la, linalg_ok la -> forall eigh normal choose m nf k sigma x y mf, (0 < m)%nat ->
  all_atoms (fun _ a => psd_atom a) k -> sigma <> 0 -> forall ne nl key np kp a P d, (0 < ne)%nat -> (0 < nl)%nat ->
  eigen m (noisy sigma (kk nf k x x)) a P -> at_most d m a -> (d <= nl)%nat ->
  (forall s, is_sign m s -> probe_ok m nl (on_vector (Ax_lhs_fun m m nf k sigma x x true)) (key_draws normal key m) eigh s) ->
  probe_mean ne m (fun signs => gpr_lml_iter la eigh (fun _ _ _ => signs) normal choose ne nl key np kp m 1 nf k sigma x y mf)
  = lml_dense la m 1 nf k sigma x y mf.
Proof. exact gpr_unbiased. Qed.
Print Assumptions C60_gpr_unbiased.
Theorem C60_gpr_derivs_unbiased : forall la, linalg_ok la -> forall eigh normal choose m nf nv k sigma x jac y mf, (0 < m * nv)%nat ->
  all_atoms (fun _ a => psd_atom a) k -> wf nf k -> ls_nonzero k -> dgram_ok k -> sigma <> 0 ->
  forall ne nl key np kp a P d, (0 < ne)%nat -> (0 < nl)%nat ->
  eigen (m * nv) (noisy sigma (d01kj m m nf nv nv k x x jac jac)) a P -> at_most d (m * nv) a -> (d <= nl)%nat ->
  (forall s, is_sign (m * nv) s -> probe_ok (m * nv) nl (on_vector (Ax_derivs_lhs_fun m m nf nv nv k sigma x jac x jac true))
     (key_draws normal key (m * nv)) eigh s) ->
  probe_mean ne (m * nv) (fun signs => gpr_lml_derivs_iter la eigh (fun _ _ _ => signs) normal choose ne nl key np kp m nf nv k sigma x jac y mf)
  = lml_derivs_dense la m nf nv k sigma x jac y mf.
Proof. exact gprd_unbiased. Qed.
Print Assumptions C60_gpr_derivs_unbiased.
Theorem C60_sgpr_unbiased : forall la, linalg_ok la -> forall eigh normal m n nf k sigma xl x y mf M, (0 < n)%nat ->
  all_atoms (fun _ a => psd_atom a) k -> nystrom m n (kk nf k xl xl) (kk nf k xl x) M -> forall ne nl key a P d, (0 < ne)%nat -> (0 < nl)%nat ->
  eigen n (noisy sigma M) a P -> at_most d n a -> (d <= nl)%nat ->
  (forall s, is_sign n s -> probe_ok n nl (on_vector (sg_Hx_fun la m n nf k sigma xl x)) (key_draws normal key n) eigh s) ->
  probe_mean ne n (fun signs => sgpr_lml_iter la eigh (fun _ _ _ => signs) normal ne nl key m n 1 nf k sigma xl x y mf)
  = sg_lml_dense la m n 1 nf k sigma xl x y mf.
Proof. exact sgpr_unbiased. Qed.
Print Assumptions C60_sgpr_unbiased.

(** any number of steps: the mean is never above the dense likelihood *)
Theorem C60_gpr_below : forall la, linalg_ok la -> forall eigh normal choose m nf k sigma x y mf, (0 < m)%nat ->
  all_atoms (fun _ a => psd_atom a) k -> sigma <> 0 -> forall ne nl key np kp a P, (0 < ne)%nat -> (0 < nl)%nat ->
  eigen m (noisy sigma (kk nf k x x)) a P ->
  (forall s, is_sign m s -> probe_ok m nl (on_vector (Ax_lhs_fun m m nf k sigma x x true)) (key_draws normal key m) eigh s) ->
  probe_mean ne m (fun signs => gpr_lml_iter la eigh (fun _ _ _ => signs) normal choose ne nl key np kp m 1 nf k sigma x y mf)
  <= lml_dense la m 1 nf k sigma x y mf.
Proof. exact gpr_below. Qed.
Print Assumptions C60_gpr_below.
Theorem C60_gpr_derivs_below : forall la, linalg_ok la -> forall eigh normal choose m nf nv k sigma x jac y mf, (0 < m * nv)%nat ->
  all_atoms (fun _ a => psd_atom a) k -> wf nf k -> ls_nonzero k -> dgram_ok k -> sigma <> 0 ->
  forall ne nl key np kp a P, (0 < ne)%nat -> (0 < nl)%nat ->
  eigen (m * nv) (noisy sigma (d01kj m m nf nv nv k x x jac jac)) a P ->
  (forall s, is_sign (m * nv) s -> probe_ok (m * nv) nl (on_vector (Ax_derivs_lhs_fun m m nf nv nv k sigma x jac x jac true))
     (key_draws normal key (m * nv)) eigh s) ->
  probe_mean ne (m * nv) (fun signs => gpr_lml_derivs_iter la eigh (fun _ _ _ => signs) normal choose ne nl key np kp m nf nv k sigma x jac y mf)
  <= lml_derivs_dense la m nf nv k sigma x jac y mf.
Proof. exact gprd_below. Qed.
Print Assumptions C60_gpr_derivs_below.
Theorem C60_sgpr_below : forall la, linalg_ok la -> forall eigh normal m n nf k sigma xl x y mf M, (0 < n)%nat ->
  all_atoms (fun _ a => psd_atom a) k -> nystrom m n (kk nf k xl xl) (kk nf k xl x) M -> forall ne nl key a P, (0 < ne)%nat -> (0 < nl)%nat ->
  eigen n (noisy sigma M) a P ->
  (forall s, is_sign n s -> probe_ok n nl (on_vector (sg_Hx_fun la m n nf k sigma xl x)) (key_draws normal key n) eigh s) ->
  probe_mean ne n (fun signs => sgpr_lml_iter la eigh (fun _ _ _ => signs) normal ne nl key m n 1 nf k sigma xl x y mf)
  <= sg_lml_dense la m n 1 nf k sigma xl x y mf.
Proof. exact sgpr_below. Qed.
Print Assumptions C60_sgpr_below.
(** targets and derivatives: the log-density of the stacked observations, per observation *)
Theorem C60_td : forall la, linalg_ok la -> forall eigh normal choose nf k sg a, all_atoms (fun _ a => psd_atom a) k -> wf nf k -> ls_nonzero k -> exact k ->
  forall y yd yd2 mf C b, (0 < td_n a)%nat -> sg_t sg <> 0 -> td_match a yd2 = true -> td_cov nf k sg a C ->
  let r := td_targets a y yd yd2 (mf (td_n a) 1%nat y) in
  veq (td_rows a) (mv (td_rows a) C b) r -> forall ne nl key np kp av P, (0 < ne)%nat -> (0 < nl)%nat -> eigen (td_rows a) C av P ->
  (forall s, is_sign (td_rows a) s -> probe_ok (td_rows a) nl
     (on_vector (fun z => match td_Ax_lhs_fun nf k sg a a true z with Some r => r | None => z end)) (key_draws normal key (td_rows a)) eigh s) ->
  exists F, (forall signs, td_lml_iter_key la eigh (fun _ _ _ => signs) normal choose ne nl key np kp nf k sg a y yd yd2 mf = Some (F signs)) /\
  INR (td_rows a) * probe_mean ne (td_rows a) F <= ln (mvn_pdf (td_rows a) C r b) /\
  (forall d, at_most d (td_rows a) av -> (d <= nl)%nat -> INR (td_rows a) * probe_mean ne (td_rows a) F = ln (mvn_pdf (td_rows a) C r b)).
Proof. exact td_mean. Qed.
Print Assumptions C60_td.

(** the keys: SGPR's log_posterior does not use the key it is given *)
Theorem C60_posterior_key : forall la eigh rademacher normal default_key gammaln ps it ne nl kl kl' np kp m n o nf k sigma xl x y mf,
  sgpr_log_posterior la eigh rademacher normal default_key gammaln ps (LikOpts it ne nl kl np kp) m n o nf k sigma xl x y mf
  = sgpr_log_posterior la eigh rademacher normal default_key gammaln ps (LikOpts it ne nl kl' np kp) m n o nf k sigma xl x y mf.
Proof. exact sgpr_posterior_key. Qed.
Print Assumptions C60_posterior_key.
(** so it is not the log-likelihood of the same call plus the log-prior *)
Theorem C60_posterior_refuted : forall la, linalg_ok la -> exists eigh rademacher normal default_key opts,
  sgpr_log_posterior la eigh rademacher normal default_key (fun _ => 0) [] opts 1 2 1 1 lin 1 ones ones ones zero_mean
  <> bind (sgpr_log_marginal_likelihood la eigh rademacher normal opts 1 2 1 1 lin 1 ones ones ones zero_mean) (fun l => Ok (log_posterior (fun _ => 0) l [])).
Proof. exact posterior_key_refuted. Qed.
Print Assumptions C60_posterior_refuted.
(** GPR's iterative likelihood called without n_pivots *)
Theorem C60_defaults : forall la eigh rademacher normal choose ne nl kl kp m o nf k sigma x y mf,
  gpr_log_marginal_likelihood la eigh rademacher normal choose (LikOpts true ne nl kl None kp) m o nf k sigma x y mf = Err TypeError.
Proof. exact gpr_defaults. Qed.
Print Assumptions C60_defaults.

(** n points with features the unit vectors, linear kernel, one step *)
Example C60_example : forall n sigma, all_atoms (fun _ a => psd_atom a) lin /\
  eigen n (noisy sigma (kk n lin eye eye)) (fun _ => 1 + (sigma ^ 2 + / 10 ^ 10)) eye /\
  at_most 1 n (fun _ => 1 + (sigma ^ 2 + / 10 ^ 10)) /\ (forall matvec draw s, probe_ok n 1 matvec draw eigh1 s).
Proof. exact (fun n sigma => conj (proj1 (lin_ok n)) (conj (proj1 (eye_design n sigma)) (conj (proj2 (eye_design n sigma)) (one_step_ok n)))). Qed.
Example C60_example_sgpr : nystrom 1 2 (kk 1 lin ones ones) (kk 1 lin ones ones) (fun _ _ => / (1 + / 10 ^ 10)).
Proof. exact ones_nystrom. Qed.
