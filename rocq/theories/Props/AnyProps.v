(** Property C71: Gaussian process regression with a kernel object of any origin. *)
From Coq Require Import List String Reals.
From Coquelicot Require Import Coquelicot.
From Verif Require Import Base.Sums Base.Mat Model.Kernels Model.PyDict Model.Params Model.Calls Model.LinAlg Model.GPR Model.KernelObj Model.KernelMethods
  Model.CustomKernel Model.GPRAny Spec.KernelSpec Spec.KernelMethodsSpec Spec.CustomSpec Spec.SmoothSpec Spec.AnySpec Spec.GPSpec Spec.TrainingSpec
  Proofs.SmoothFacts Proofs.AnyFacts Proofs.CustomExamples Proofs.AnyExamples.
Open Scope R_scope.

(** ** C71 *)
(** values: fit and prediction *)
Theorem C71_values : forall la nf K t sigma k, linalg_ok la -> differentiates (ko K) t nf k -> covariance k -> forall m o x y mf, exists c,
  any_fit la nf K t sigma m o x y mf = Ok (Some (c, mf m o y)) /\
  ridge m o (cov_values k x x) sigma (mf m o y) y c /\
  (forall c', ridge m o (cov_values k x x) sigma (mf m o y) y c' -> meq m o c' c) /\
  forall x', exists P, any_predict nf K t sigma m x x' c (mf m o y) = Ok (Some P) /\
    forall s j, P s j = mf m o y + sum m (fun i => k (x i) (x' s) * c i j).
Proof. exact any_values. Qed.
Print Assumptions C71_values.
(** the covariance of the predictions is a covariance, not larger than the prior one, and has the textbook form *)
Theorem C71_covariance : forall la nf K t sigma k, linalg_ok la -> differentiates (ko K) t nf k -> covariance k -> forall m n x x', exists V,
  any_predict_cov la nf K t sigma m x x' = Ok (Some V) /\
  sym n V /\ psd n V /\ psd n (fun i j => k (x' i) (x' j) - V i j) /\
  forall B, meq m n (mm m (noisy sigma (cov_values k x x)) B) (cov_values k x x') ->
    forall i j, (i < n)%nat -> (j < n)%nat -> V i j = k (x' i) (x' j) - sum m (fun a => k (x a) (x' i) * B a j).
Proof. exact any_cov. Qed.
Print Assumptions C71_covariance.
(** derivatives: the fit, whose matrix is positive definite because the kernel is a smooth covariance function *)
Theorem C71_derivatives : forall la nf K t sigma k, linalg_ok la -> differentiates (ko K) t nf k -> covariance k ->
  forall g0 g1 h, smooth nf k g0 g1 h -> forall m nv x jac y mf, exists c,
  let mu := mf (m * nv)%nat 1%nat (flat nv y) in
  any_fit_derivs la nf K t sigma m nv x jac y mf = Ok (Some (c, mu)) /\
  ridge (m * nv) 1 (cov_derivs nf nv nv h x jac x jac) sigma mu (flat nv y) c /\
  (forall c', ridge (m * nv) 1 (cov_derivs nf nv nv h x jac x jac) sigma mu (flat nv y) c' -> meq (m * nv) 1 c' c).
Proof. exact any_derivs. Qed.
Print Assumptions C71_derivatives.
(** predictions of derivatives and of values, whichever way they are computed *)
Theorem C71_predict_derivs : forall nf K t sigma k, differentiates (ko K) t nf k -> forall g0 g1 h, smooth nf k g0 g1 h ->
  forall mode m n nv nd xt jt x jac c mu, mode_ok K mode -> exists P,
  any_predict_derivs nf K t sigma m n nv nd xt jt x jac c mu (contracted mode nv c jt) = Ok (Some P) /\
  forall s u, (s < n)%nat -> (u < nd)%nat ->
    P s u = mu + sum (m * nv) (fun r => cov_derivs nf nv nd h xt jt x jac r (s * nd + u)%nat * c r O).
Proof. exact any_forces. Qed.
Print Assumptions C71_predict_derivs.
Theorem C71_predict_y_derivs : forall nf K t k, differentiates (ko K) t nf k -> forall g0 g1 h, smooth nf k g0 g1 h ->
  forall mode m n nv xt jt x c mu, mode_ok K mode -> exists P,
  any_predict_y_derivs nf K t m n nv xt jt x c mu (contracted mode nv c jt) = Ok (Some P) /\
  forall s, (s < n)%nat -> P s O = mu + sum (m * nv) (fun r => cov_derivs_values nf nv g0 xt jt x r s * c r O).
Proof. exact any_energies. Qed.
Print Assumptions C71_predict_y_derivs.
(** the predicted derivatives are those of the predicted values when the samples move along the columns of the
    jacobian *)
Theorem C71_consistent : forall nf K t sigma k, differentiates (ko K) t nf k -> forall g0 g1 h, smooth nf k g0 g1 h ->
  forall mode mode' m n nv nd xt jt x jac c mu u, mode_ok K mode -> mode_ok K mode' -> (u < nd)%nat -> exists Y P,
  (forall r, any_predict_y_derivs nf K t m n nv xt jt (fun s => toward (x s) (column jac s u) r) c mu (contracted mode nv c jt) = Ok (Some (Y r))) /\
  any_predict_derivs nf K t sigma m n nv nd xt jt x jac c 0 (contracted mode' nv c jt) = Ok (Some P) /\
  forall s, (s < n)%nat -> is_derive (fun r => Y r s O) 0 (P s u).
Proof. exact any_consistent. Qed.
Print Assumptions C71_consistent.
(** the likelihoods are log densities of the normal distribution with these covariances *)
Theorem C71_likelihood : forall la nf K t sigma k, linalg_ok la -> differentiates (ko K) t nf k -> covariance k ->
  forall m x y mf, (0 < m)%nat -> exists v, any_lml la nf K t sigma m 1 x y mf = Ok (Some v) /\
  log_density m (noisy sigma (cov_values k x x)) (fun i => y i O - mf m 1%nat y) v.
Proof. exact any_score. Qed.
Print Assumptions C71_likelihood.
Theorem C71_likelihood_derivs : forall la nf K t sigma k, linalg_ok la -> differentiates (ko K) t nf k -> covariance k ->
  forall g0 g1 h, smooth nf k g0 g1 h -> forall m nv x jac y mf, (0 < m * nv)%nat -> exists v,
  any_lml_derivs la nf K t sigma m nv x jac y mf = Ok (Some v) /\
  log_density (m * nv) (noisy sigma (cov_derivs nf nv nv h x jac x jac)) (fun i => flat nv y i O - mf (m * nv)%nat 1%nat (flat nv y)) v.
Proof. exact any_score_derivs. Qed.
Print Assumptions C71_likelihood_derivs.
(** smooth kernels: what autodiff then computes, those of the library, sums and products *)
Theorem C71_autodiff : forall nf k g0 g1 h, smooth nf k g0 g1 h -> autodiff nf k g0 g1 h.
Proof. exact smooth_autodiff. Qed.
Print Assumptions C71_autodiff.
Theorem C71_smooth_library : forall nf k, wf nf k -> ls_nonzero k -> exact k -> smooth_kernel nf (kernel_at nf k).
Proof. exact smooth_library. Qed.
Print Assumptions C71_smooth_library.
Theorem C71_smooth_composite : forall nf k1 k2, smooth_kernel nf k1 -> smooth_kernel nf k2 ->
  smooth_kernel nf (fun x y => k1 x y + k2 x y) /\ smooth_kernel nf (fun x y => k1 x y * k2 x y).
Proof. exact (fun nf k1 k2 H1 H2 => conj (smooth_sum nf k1 k2 H1 H2) (smooth_prod nf k1 k2 H1 H2)). Qed.
Print Assumptions C71_smooth_composite.
(** the mixed derivatives of a smooth covariance function are a covariance *)
Theorem C71_mixed : forall nf k g0 g1 h, smooth nf k g0 g1 h -> covariance k ->
  (forall x y u v, dir2 nf h x y u v = dir2 nf h y x v u) /\
  forall n (X U : Mat) (c : Vec), 0 <= sum n (fun i => sum n (fun j => c i * dir2 nf h (X i) (X j) (U i) (U j) * c j)).
Proof. exact (fun nf k g0 g1 h S C => conj (dir01_sym nf k g0 g1 h S (proj1 C)) (mixed_psd nf k g0 g1 h S C)). Qed.
Print Assumptions C71_mixed.
(** kernels that the default options work with; a sum with a user's kernel is not one of them *)
Theorem C71_default_options : forall u ad p q mode, mode_ok (user_object u ad) mode /\ mode_ok (prod_object p q) mode.
Proof. exact (fun u ad p q mode => conj (user_mode u ad mode) (prod_mode p q mode)). Qed.
Print Assumptions C71_default_options.
Theorem C71_sum_refuted : forall nf p q t sigma m n nv nd xt jt x jac c mu jc,
  any_predict_derivs nf (sum_object p q) t sigma m n nv nd xt jt x jac c mu (Some jc) = Err TypeError /\
  any_predict_y_derivs nf (sum_object p q) t m n nv xt jt x c mu (Some jc) = Err TypeError.
Proof. exact sum_raises. Qed.
Print Assumptions C71_sum_refuted.
(** with a kernel of the library these are the routines of C38-C42 *)
Theorem C71_library : forall la K t k, computes (ko K) t k -> forall nf sigma,
  (forall m o x y mf, any_fit la nf K t sigma m o x y mf = Ok (Some (fit_dense la m o nf k sigma x y mf))) /\
  (forall m xt x c mu, any_predict nf K t sigma m xt x c mu = Ok (Some (predict_dense m nf k sigma xt x c mu))) /\
  (forall m xt x, any_predict_cov la nf K t sigma m xt x = Ok (Some (predict_cov la m nf k sigma xt x))) /\
  (forall m nv x jac y mf, any_fit_derivs la nf K t sigma m nv x jac y mf = Ok (Some (fit_derivs_dense la m nf nv k sigma x jac y mf))) /\
  (forall m n nv nd xt jt x jac c mu, any_predict_derivs nf K t sigma m n nv nd xt jt x jac c mu None
    = Ok (Some (predict_derivs_dense m n nf nv nd k sigma xt jt x jac c mu))) /\
  (forall m n nv xt jt x c mu, any_predict_y_derivs nf K t m n nv xt jt x c mu None
    = Ok (Some (predict_y_derivs_dense m n nf nv k xt jt x c mu))) /\
  (mode_ok K true ->
    (forall m n nv nd xt jt x jac c mu jc, any_predict_derivs nf K t sigma m n nv nd xt jt x jac c mu (Some jc)
      = Ok (Some (predict_derivs_jaccoef m n nf nd k xt x jac mu jc))) /\
    (forall m n nv xt jt x c mu jc, any_predict_y_derivs nf K t m n nv xt jt x c mu (Some jc)
      = Ok (Some (predict_y_derivs_jaccoef m n nf k xt x mu jc)))) /\
  (forall m o x y mf, any_lml la nf K t sigma m o x y mf = Ok (Some (lml_dense la m o nf k sigma x y mf))) /\
  (forall m nv x jac y mf, any_lml_derivs la nf K t sigma m nv x jac y mf = Ok (Some (lml_derivs_dense la m nf nv k sigma x jac y mf))).
Proof. exact library_any. Qed.
Print Assumptions C71_library.
Example C71_case : forall nf, (0 < nf)%nat ->
  (differentiates (ko (user_object sq_base None)) (Node nil) nf sq_k /\ covariance sq_k /\ smooth nf sq_k sq_g0 sq_g1 sq_h) /\
  differentiates (ko mixed_object) mixed_params nf (mixed_k nf) /\ covariance (mixed_k nf) /\ smooth_kernel nf (mixed_k nf).
Proof.
  exact (fun nf H => conj (conj (CustomFacts.user_differentiates sq_base nf None _ _ sq_accepted eq_refl (sq_autodiff nf)) (conj sq_covariance (sq_smooth nf H)))
    (mixed_case nf H)).
Qed.
