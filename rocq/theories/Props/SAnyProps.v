(** Property C72: sparse regression with a kernel object of any origin. *)
From Coq Require Import List String Reals.
From Coquelicot Require Import Coquelicot.
From Verif Require Import Base.Sums Base.Mat Model.Kernels Model.PyDict Model.Params Model.Calls Model.LinAlg Model.GPR Model.SGPR Model.SGPRMore
  Model.KernelObj Model.KernelMethods Model.CustomKernel Model.GPRAny Model.SGPRAny Spec.KernelSpec Spec.KernelMethodsSpec Spec.CustomSpec
  Spec.SmoothSpec Spec.AnySpec Spec.GPSpec Spec.SparseSpec Spec.TrainingSpec Proofs.SmoothFacts Proofs.SAnyFacts Proofs.CustomExamples Proofs.AnyExamples
  Proofs.SAnyExamples.
Open Scope R_scope.

(** ** C72 *)
(** values: the fit minimises the regularised squared error, c' is any competitor; prediction *)
Theorem C72_values : forall la nf K t sigma k, linalg_ok la -> differentiates (ko K) t nf k -> covariance k -> forall m n o xl x y mf, exists c,
  any_sg_fit la nf K t sigma m n o xl x y mf = Ok (Some (c, mf n o y)) /\
  (forall j, (j < o)%nat -> forall c',
    let J := sparse_objective m n sigma (cov_values k xl xl) (cov_values k xl x) (fun i => y i j - mf n o y) in
    J (fun a => c a j) + / 10 ^ 10 * sum m (fun a => (c' a - c a j) ^ 2) <= J c') /\
  forall x', exists P, any_sg_predict nf K t m xl x' c (mf n o y) = Ok (Some P) /\
    forall s j, P s j = mf n o y + sum m (fun i => k (x' s) (xl i) * c i j).
Proof. exact sany_values. Qed.
Print Assumptions C72_values.
(** inducing points = training points: the distance from the predictions of GPR, at any point *)
Theorem C72_gpr : forall la nf K t sigma k, linalg_ok la -> differentiates (ko K) t nf k -> covariance k -> forall m o x y mf xs, exists cs cg Ps Pg,
  any_sg_fit la nf K t sigma m m o x x y mf = Ok (Some (cs, mf m o y)) /\ any_fit la nf K t sigma m o x y mf = Ok (Some (cg, mf m o y)) /\
  any_sg_predict nf K t m x xs cs (mf m o y) = Ok (Some Ps) /\ any_predict nf K t sigma m x xs cg (mf m o y) = Ok (Some Pg) /\
  forall s j, (j < o)%nat -> sigma ^ 2 * (sigma ^ 2 + / 10 ^ 10) ^ 2 * (Ps s j - Pg s j) ^ 2
    <= k (xs s) (xs s) * (/ 10 ^ 10 * (1 + / 10 ^ 10) / 4) * sum m (fun i => (y i j - mf m o y) ^ 2).
Proof. exact sany_same. Qed.
Print Assumptions C72_gpr.
(** the covariance of the predictions *)
Theorem C72_covariance : forall la nf K t sigma k, linalg_ok la -> differentiates (ko K) t nf k -> covariance k -> forall m n xl x, exists V,
  any_sg_predict_cov la nf K t sigma m n xl x = Ok (Some V) /\
  sym n V /\ psd n V /\ (sigma ^ 2 <= 1 -> psd n (fun i j => k (x i) (x j) - V i j)) /\
  forall B1 B2, meq m n (fun a j => sum m (fun b => k (xl a) (xl b) * B1 b j) + / 10 ^ 10 * B1 a j) (cov_values k xl x) ->
    meq m n (fun a j => sum m (fun b => (sigma ^ 2 * k (xl a) (xl b) + sum n (fun i => k (xl a) (x i) * k (xl b) (x i))) * B2 b j)
      + / 10 ^ 10 * B2 a j) (cov_values k xl x) ->
    forall i j, (i < n)%nat -> (j < n)%nat ->
    V i j = k (x i) (x j) - sum m (fun a => k (xl a) (x i) * B1 a j) + sigma ^ 2 * sum m (fun a => k (xl a) (x i) * B2 a j).
Proof. exact sany_cov. Qed.
Print Assumptions C72_covariance.
(** derivatives *)
Theorem C72_derivatives : forall la nf K t sigma k, linalg_ok la -> differentiates (ko K) t nf k -> covariance k ->
  forall g0 g1 h, smooth nf k g0 g1 h -> forall m n nv nd xl jl x y jac mf, exists c,
  let mu := mf (n * nd)%nat 1%nat (flat nd y) in
  any_sg_fit_derivs la nf K t sigma m n nv nd xl jl x y jac mf = Ok (Some (c, mu)) /\
  forall c', let J := sparse_objective (m * nv) (n * nd) sigma (cov_derivs nf nv nv h xl jl xl jl) (cov_derivs nf nv nd h xl jl x jac)
      (fun i => flat nd y i O - mu) in
    J (fun a => c a O) + / 10 ^ 10 * sum (m * nv) (fun a => (c' a - c a O) ^ 2) <= J c'.
Proof. exact sany_derivs. Qed.
Print Assumptions C72_derivatives.
(** predictions, from the full matrix or the contracted jacobian, for every kernel object (also sums) *)
Theorem C72_predict_derivs : forall nf K t k, differentiates (ko K) t nf k -> covariance k -> forall g0 g1 h, smooth nf k g0 g1 h ->
  forall mode m n nv nd xl jl x jac c mu, exists P,
  any_sg_predict_derivs nf K t m n nv nd xl jl x jac c mu (contracted mode nv c jl) = Ok (Some P) /\
  forall s u, (s < n)%nat -> (u < nd)%nat ->
    P s u = mu + sum (m * nv) (fun r => cov_derivs nf nv nd h xl jl x jac r (s * nd + u)%nat * c r O).
Proof. exact sany_forces. Qed.
Print Assumptions C72_predict_derivs.
Theorem C72_predict_y_derivs : forall nf K t k, differentiates (ko K) t nf k -> forall g0 g1 h, smooth nf k g0 g1 h ->
  forall mode m n nv xl jl x c mu, exists P,
  any_sg_predict_y_derivs nf K t m n nv xl jl x c mu (contracted mode nv c jl) = Ok (Some P) /\
  forall s, (s < n)%nat -> P s O = mu + sum (m * nv) (fun r => cov_derivs_values nf nv g0 xl jl x r s * c r O).
Proof. exact sany_energies. Qed.
Print Assumptions C72_predict_y_derivs.
Theorem C72_consistent : forall nf K t k, differentiates (ko K) t nf k -> covariance k -> forall g0 g1 h, smooth nf k g0 g1 h ->
  forall mode mode' m n nv nd xl jl x jac c mu u, (u < nd)%nat -> exists Y P,
  (forall r, any_sg_predict_y_derivs nf K t m n nv xl jl (fun s => toward (x s) (column jac s u) r) c mu (contracted mode nv c jl) = Ok (Some (Y r))) /\
  any_sg_predict_derivs nf K t m n nv nd xl jl x jac c 0 (contracted mode' nv c jl) = Ok (Some P) /\
  forall s, (s < n)%nat -> is_derive (fun r => Y r s O) 0 (P s u).
Proof. exact sany_consistent. Qed.
Print Assumptions C72_consistent.
(** likelihoods: log densities under the Nystrom covariance; that of derivatives raises for two columns *)
Theorem C72_likelihood : forall la nf K t sigma k, linalg_ok la -> differentiates (ko K) t nf k -> covariance k ->
  forall m n xl x y mf, (0 < n)%nat -> exists v M, any_sg_lml la nf K t sigma m n 1 xl x y mf = Ok (Some v) /\
  nystrom m n (cov_values k xl xl) (cov_values k xl x) M /\ log_density n (noisy sigma M) (fun i => y i O - mf n 1%nat y) v.
Proof. exact sany_score. Qed.
Print Assumptions C72_likelihood.
Theorem C72_likelihood_derivs : forall la nf K t sigma k, linalg_ok la -> differentiates (ko K) t nf k -> covariance k ->
  forall g0 g1 h, smooth nf k g0 g1 h -> forall m n xl jl x y jac mf, (0 < n)%nat -> exists v M,
  any_sg_lml_derivs la nf K t sigma m n 1 1 xl jl x y jac mf = Ok (Some v) /\
  nystrom m n (cov_derivs nf 1 1 h xl jl xl jl) (cov_derivs nf 1 1 h xl jl x jac) M /\
  log_density n (noisy sigma M) (fun i => y i O - mf n 1%nat y) v.
Proof. exact sany_score_derivs. Qed.
Print Assumptions C72_likelihood_derivs.
Theorem C72_likelihood_derivs_refuted : forall la nf K t sigma k, differentiates (ko K) t nf k -> forall g0 g1 h, smooth nf k g0 g1 h ->
  forall m n xl jl x y jac mf, any_sg_lml_derivs la nf K t sigma m n 2 2 xl jl x y jac mf = Err ValueError.
Proof. exact sany_score_derivs_raises. Qed.
Print Assumptions C72_likelihood_derivs_refuted.
(** with a kernel of the library these are the routines of C47 *)
Theorem C72_library : forall la K t k, computes (ko K) t k -> forall nf sigma,
  (forall m n o xl x y mf, any_sg_fit la nf K t sigma m n o xl x y mf = Ok (Some (sg_fit_dense la m n o nf k sigma xl x y mf))) /\
  (forall m xl x c mu, any_sg_predict nf K t m xl x c mu = Ok (Some (sg_predict_dense m nf k xl x c mu))) /\
  (forall m n xl x, any_sg_predict_cov la nf K t sigma m n xl x = Ok (Some (sg_predict_cov la m n nf k sigma xl x))) /\
  (forall m n nv nd xl jl x y jac mf, any_sg_fit_derivs la nf K t sigma m n nv nd xl jl x y jac mf
    = Ok (Some (sg_fit_derivs_dense la m n nf nv nd k sigma xl jl x y jac mf))) /\
  (forall m n nv nd xl jl x jac c mu, any_sg_predict_derivs nf K t m n nv nd xl jl x jac c mu None
    = Ok (Some (sg_predict_derivs_dense m n nf nv nd k xl jl x jac c mu))) /\
  (forall m n nv nd xl jl x jac c mu jc, any_sg_predict_derivs nf K t m n nv nd xl jl x jac c mu (Some jc)
    = Ok (Some (sg_predict_derivs_jaccoef m n nf nd k xl x jac mu jc))) /\
  (forall m n nv xl jl x c mu, any_sg_predict_y_derivs nf K t m n nv xl jl x c mu None
    = Ok (Some (sg_predict_y_derivs_dense m n nf nv k xl jl x c mu))) /\
  (forall m n nv xl jl x c mu jc, any_sg_predict_y_derivs nf K t m n nv xl jl x c mu (Some jc)
    = Ok (Some (sg_predict_y_derivs_jaccoef m n nf k xl x mu jc))) /\
  (forall m n o xl x y mf, any_sg_lml la nf K t sigma m n o xl x y mf = Ok (Some (sg_lml_dense la m n o nf k sigma xl x y mf))) /\
  (forall m n nv nd xl jl x y jac mf, any_sg_lml_derivs la nf K t sigma m n nv nd xl jl x y jac mf
    = match sg_lml_derivs_dense la m n nf nv nd k sigma xl jl x y jac mf with Some v => Ok (Some v) | None => Err ValueError end).
Proof. exact library_sany. Qed.
Print Assumptions C72_library.
(** MyKernel() + Linear(): a sum, with the default options *)
Example C72_case : forall nf, (0 < nf)%nat ->
  differentiates (ko plus_object) mixed_params nf (plus_k nf) /\ covariance (plus_k nf) /\ smooth_kernel nf (plus_k nf) /\
  ~ mode_ok plus_object true.
Proof. exact plus_case. Qed.
