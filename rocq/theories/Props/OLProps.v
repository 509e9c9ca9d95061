(** Properties of operator learning (fit_ol, predict_ol, mse_loss of models/_gpr.py).
    Reference: is_svd, ol_objective (Spec/OLSpec.v), linalg_ok (Model/LinAlg.v). *)
From Coq Require Import Reals Arith List.
From Verif Require Import Base.Sums Base.Mat Base.PSD Model.Arrays Model.Kernels Model.LinAlg Model.Operations
  Model.GPR Model.OL Spec.KernelSpec Spec.OLSpec Proofs.JetPSD Proofs.KernelPropLemmas Proofs.GPRExamples
  Proofs.SGPRExamples Proofs.OLFacts.
Open Scope R_scope.

(** ** C52 *)
(** the coefficients are the only minimiser of the sum of squared value and derivative residuals *)
Theorem C52_least_squares : forall la, linalg_ok la -> forall m nf nv k sigma x y yd jac mf U s Vt,
  all_atoms (fun _ a => psd_atom a) k -> wf nf k ->
  is_svd (m + m * nv) m (vcat m (A_lhs nf k sigma x x true) (d0kj m m nf nv k x x jac)) U s Vt ->
  let c := fst (fit_ol la U s Vt m nf nv k sigma x y yd jac mf) in
  let mu := snd (fit_ol la U s Vt m nf nv k sigma x y yd jac mf) in
  let J := fun c : Mat => ol_objective m nv sigma y yd c (fun i => predict_ol_y m nf k sigma x x c mu i O)
      (fun t u => predict_ol_yd m m nf nv k x x jac c (t * nv + u)%nat O) in
  mu = mf m 1%nat y /\ (forall c', J c <= J c') /\
  (forall c', J c' <= J c -> forall j, (j < m)%nat -> c' j O = c j O).
Proof. exact fit_ol_least_squares. Qed.
Print Assumptions C52_least_squares.
Theorem C52_any_svd : forall la, linalg_ok la -> forall m nf nv k sigma x y yd jac mf U s Vt U' s' Vt',
  all_atoms (fun _ a => psd_atom a) k -> wf nf k ->
  is_svd (m + m * nv) m (vcat m (A_lhs nf k sigma x x true) (d0kj m m nf nv k x x jac)) U s Vt ->
  is_svd (m + m * nv) m (vcat m (A_lhs nf k sigma x x true) (d0kj m m nf nv k x x jac)) U' s' Vt' ->
  meq m 1 (fst (fit_ol la U s Vt m nf nv k sigma x y yd jac mf)) (fst (fit_ol la U' s' Vt' m nf nv k sigma x y yd jac mf)).
Proof. exact fit_ol_any_svd. Qed.
Print Assumptions C52_any_svd.
Example C52_example : forall sigma x jac, exists U s Vt,
  is_svd (1 + 1 * 2) 1 (vcat 1 (A_lhs 3 gp_kernel sigma x x true) (d0kj 1 1 3 2 gp_kernel x x jac)) U s Vt.
Proof. exact ex_svd. Qed.
(** mse_loss is the training error of the model fitted to the same data: the mean over the m values plus coeff
    times the mean over the m * na derivative vectors *)
Theorem C52_loss : forall la m nf na jv k sigma x y jac yd mf U s Vt coeff, (0 < jv)%nat ->
  let f := fit_ol la U s Vt m nf (na * jv) k sigma x y (fun s v => yd s (v / jv) (v mod jv))%nat jac mf in
  mse la U s Vt m nf na jv k sigma x y jac yd mf coeff
  = / INR m * sum m (fun i => (predict_ol_y m nf k sigma x x (fst f) (snd f) i O - y i O) ^ 2)
    + coeff * (/ INR (m * na) * sum m (fun t => sum na (fun a => sum jv (fun w =>
        (predict_ol_yd m m nf (na * jv) k x x jac (fst f) (t * (na * jv) + (a * jv + w))%nat O - yd t a w) ^ 2)))).
Proof. exact mse_training_error. Qed.
Print Assumptions C52_loss.
(** Claim: with full_covariance=True predict_ol returns the posterior covariance. It uses the derivative kernel in
    place of the kernel, so that for a vanishing jacobian it is the prior covariance *)
Theorem C52_covariance_is_prior : forall la, linalg_ok la -> forall m n nf nd k sigma xt x,
  all_atoms (fun _ a => psd_atom a) k -> wf nf k ->
  (n <= n * nd)%nat -> meq n n (predict_ol_cov la m n nf nd k sigma xt x (fun _ _ _ => 0)) (kk nf k x x).
Proof. exact ol_cov_prior. Qed.
Print Assumptions C52_covariance_is_prior.
Theorem C52_covariance_refuted : forall la, linalg_ok la -> forall nf k sigma (x : Mat),
  all_atoms (fun _ a => psd_atom a) k -> wf nf k -> kernel_at nf k (x O) (x O) <> 0 ->
  predict_ol_cov la 1 1 nf 1 k sigma x x (fun _ _ _ => 0) O O <> predict_cov la 1 nf k sigma x x O O.
Proof. exact ol_cov_not_posterior. Qed.
Print Assumptions C52_covariance_refuted.
Example C52_covariance_example : kernel_at 1 lin (ones O) (ones O) <> 0.
Proof. exact ex_ol_kernel. Qed.
