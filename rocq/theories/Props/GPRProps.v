(** Properties of exact Gaussian process regression (models/_gpr.py), of the matrix-free operators
    (operations.py) and of the randomly pivoted Cholesky approximation (kernels/approximations.py).
    Reference: linalg_ok (Model/LinAlg.v) is what is assumed of solve, cholesky, solve_triangular, inv, cg. *)
From Coq Require Import Reals Arith List.
From Coquelicot Require Import Coquelicot.
From Verif Require Import Base.Sums Base.Mat Base.PSD Model.Arrays Model.Kernels Model.LinAlg Model.Operations
  Model.RPCholesky Model.GPR Spec.KernelSpec Spec.Det Spec.MVN Spec.GPSpec
  Proofs.LinAlgFacts Proofs.Matvec Proofs.JetPSD Proofs.GPRFacts Proofs.GPRCov Proofs.CurveDeriv Proofs.GPRLml
  Proofs.RPChol Proofs.GPRExamples Proofs.GPRPack Spec.CloseSpec Proofs.KernelClose Proofs.GPRClose
  Spec.SoftSpec Proofs.DGram Proofs.SoftJoint.
Open Scope R_scope.

(** the assumptions on the linear algebra library are satisfiable *)
Example linalg_example : linalg_ok ref_la.
Proof. exact ref_la_ok. Qed.
Example gp_example : all_atoms (fun _ a => psd_atom a) gp_kernel /\ wf 3 gp_kernel /\ ls_nonzero gp_kernel
  /\ exact gp_kernel /\ dgram_ok gp_kernel.
Proof. exact gp_kernel_ok. Qed.

(** ** C37 *)
Theorem C37_matvec : forall (X : Type) h N (rowf : X -> Mat) xs (upd : bool) v z d (A : Mat),
  (upd = true -> (h * length xs <= N)%nat) ->
  (forall s a c, (s < length xs)%nat -> (a < h)%nat -> (c < N)%nat ->
     A (s * h + a)%nat c = rowf (nth s xs d) a c) ->
  forall r j, (r < length xs * h)%nat ->
  rowfun_to_matvec h N rowf xs upd v z r j
  = sum N (fun c => (A r c + (if upd then v * (if Nat.eqb r c then 1 else 0) else 0)) * z c j).
Proof. exact @matvec_sum. Qed.
Print Assumptions C37_matvec.
Theorem C37_gram : forall n1 n2 nf k sigma x1 x2 noise z i j, (noise = true -> (n1 <= n2)%nat) -> (i < n1)%nat ->
  Ax_lhs_fun n1 n2 nf k sigma x1 x2 noise z i j = mm n2 (if noise then noisy sigma (kk nf k x1 x2) else kk nf k x1 x2) z i j.
Proof. exact Ax_mm. Qed.
Print Assumptions C37_gram.
Theorem C37_derivative_gram : forall n1 n2 nf nv1 nv2 k sigma x1 J1 x2 J2 noise z i j, wf nf k ->
  (noise = true -> (n1 <= n2)%nat /\ nv1 = nv2) -> (i < n1 * nv1)%nat ->
  Ax_derivs_lhs_fun n1 n2 nf nv1 nv2 k sigma x1 J1 x2 J2 noise z i j
  = mm (n2 * nv2) (if noise then noisy sigma (d01kj n1 n2 nf nv1 nv2 k x1 x2 J1 J2)
                  else d01kj n1 n2 nf nv1 nv2 k x1 x2 J1 J2) z i j.
Proof. exact Axd_mm. Qed.
Print Assumptions C37_derivative_gram.
Theorem C37_value_derivative : forall n1 n2 nf nv k x1 x2 J2 z i j, wf nf k -> (i < n1)%nat ->
  Kx_derivs1_fun n1 n2 nf nv k x1 x2 J2 z i j = mm (n2 * nv) (d1kj n1 n2 nf nv k x1 x2 J2) z i j.
Proof. exact Kxd1_mm. Qed.
Print Assumptions C37_value_derivative.
Example C37_example : forall s a c : nat, (s < 2)%nat -> (a < 3)%nat -> (c < 6)%nat ->
  (fun i j => INR (i + j)) (s * 3 + a)%nat c
  = (fun (x : nat) (a c : nat) => INR (x * 3 + a + c)) (nth s (0 :: 1 :: nil)%nat O) a c.
Proof. exact ex_C37. Qed.

(** ** C38 *)
Theorem C38_residual : forall la, linalg_ok la -> forall m o nf k sigma x y mf,
  all_atoms (fun _ a => psd_atom a) k ->
  let c := fst (fit_dense la m o nf k sigma x y mf) in
  let mu := snd (fit_dense la m o nf k sigma x y mf) in
  forall i j, (i < m)%nat -> (j < o)%nat ->
  y i j - predict_dense m nf k sigma x x c mu i j = (sigma ^ 2 + / 10 ^ 10) * c i j.
Proof. exact fit_residual. Qed.
Print Assumptions C38_residual.
Theorem C38_unique : forall la, linalg_ok la -> forall m o nf k sigma x y mf c',
  all_atoms (fun _ a => psd_atom a) k ->
  (forall i j, (i < m)%nat -> (j < o)%nat ->
     y i j - predict_dense m nf k sigma x x c' (mf m o y) i j = (sigma ^ 2 + / 10 ^ 10) * c' i j) ->
  meq m o c' (fst (fit_dense la m o nf k sigma x y mf)).
Proof. exact fit_unique. Qed.
Print Assumptions C38_unique.
Theorem C38_derivatives : forall la, linalg_ok la -> forall m nf nv k sigma x jac y mf,
  all_atoms (fun _ a => psd_atom a) k -> wf nf k -> ls_nonzero k -> dgram_ok k ->
  let c := fst (fit_derivs_dense la m nf nv k sigma x jac y mf) in
  let mu := snd (fit_derivs_dense la m nf nv k sigma x jac y mf) in
  forall s v, (s < m)%nat -> (v < nv)%nat ->
  y s v - predict_derivs_dense m m nf nv nv k sigma x jac x jac c mu s v
  = (sigma ^ 2 + / 10 ^ 10) * c (s * nv + v)%nat O.
Proof. exact fit_derivs_residual. Qed.
Print Assumptions C38_derivatives.
(** any kernel whose noisy derivative matrix is positive definite (see C56_slack_pd) *)
Theorem C38_derivatives_pd : forall la, linalg_ok la -> forall m nf nv k sigma x jac, wf nf k -> ls_nonzero k ->
  (forall s t, (s < m)%nat -> (t < m)%nat -> all_atoms (fun ad a => regular_pair nf ad a (x s) (x t)) k) ->
  pd (m * nv) (noisy sigma (d01kj m m nf nv nv k x x jac jac)) -> forall y mf,
  let c := fst (fit_derivs_dense la m nf nv k sigma x jac y mf) in
  let mu := snd (fit_derivs_dense la m nf nv k sigma x jac y mf) in
  forall s v, (s < m)%nat -> (v < nv)%nat ->
  y s v - predict_derivs_dense m m nf nv nv k sigma x jac x jac c mu s v
  = (sigma ^ 2 + / 10 ^ 10) * c (s * nv + v)%nat O.
Proof. exact fit_derivs_residual_pd. Qed.
Print Assumptions C38_derivatives_pd.
(** the prediction reads the kernel only: mu + k(x, x_train) c *)
Theorem C38_prediction : forall m nf k sigma xt x c mu t j,
  predict_dense m nf k sigma xt x c mu t j = mu + sum m (fun s => kernel_at nf k (x t) (xt s) * c s j).
Proof. exact predict_dense_at. Qed.
Print Assumptions C38_prediction.

(** ** C39 *)
Theorem C39_predict : forall m n nf k sigma xt x c mu t j, (t < n)%nat ->
  predict_iter m n nf k sigma xt x c mu t j = predict_dense m nf k sigma xt x c mu t j.
Proof. exact predict_iter_eq. Qed.
Print Assumptions C39_predict.
Theorem C39_predict_derivs : forall m n nf nv nd k sigma xt jt x jac c mu t u,
  wf nf k -> ls_nonzero k ->
  (forall s t, (s < m)%nat -> (t < n)%nat -> all_atoms (fun ad a => regular_pair nf ad a (xt s) (x t)) k) ->
  (t < n)%nat -> (u < nd)%nat ->
  predict_derivs_iter m n nf nv nd k sigma xt jt x jac c mu t u
  = predict_derivs_dense m n nf nv nd k sigma xt jt x jac c mu t u.
Proof. exact predict_derivs_iter_eq. Qed.
Print Assumptions C39_predict_derivs.
Theorem C39_predict_y_derivs : forall m n nf nv k xt jt x c mu t j, wf nf k -> (t < n)%nat ->
  predict_y_derivs_iter m n nf nv k xt jt x c mu t j = predict_y_derivs_dense m n nf nv k xt jt x c mu t j.
Proof. exact predict_y_derivs_iter_eq. Qed.
Print Assumptions C39_predict_y_derivs.
Theorem C39_jaccoef : forall m n nf nv nd k sigma xt jt x jac c mu t u,
  wf nf k -> ls_nonzero k -> no_m52 k -> (t < n)%nat -> (u < nd)%nat ->
  predict_derivs_jaccoef m n nf nd k xt x jac mu (jaccoef_of nv c jt) t u
  = predict_derivs_dense m n nf nv nd k sigma xt jt x jac c mu t u.
Proof. exact predict_derivs_jaccoef_eq. Qed.
Print Assumptions C39_jaccoef.
Theorem C39_jaccoef_values : forall m n nf nv k xt jt x c mu t j,
  wf nf k -> ls_nonzero k -> no_m52 k -> (t < n)%nat -> j = O ->
  predict_y_derivs_jaccoef m n nf k xt x mu (jaccoef_of nv c jt) t j
  = predict_y_derivs_dense m n nf nv k xt jt x c mu t j.
Proof. exact predict_y_derivs_jaccoef_eq. Qed.
Print Assumptions C39_jaccoef_values.
(** any kernel, Matern52 included (the error is zero without it) *)
Theorem C39_jaccoef_close : forall m n nf nv nd k sigma xt jt x jac c mu t u,
  wf nf k -> ls_nonzero k -> (t < n)%nat -> (u < nd)%nat ->
  Rabs (predict_derivs_jaccoef m n nf nd k xt x jac mu (jaccoef_of nv c jt) t u
        - predict_derivs_dense m n nf nv nd k sigma xt jt x jac c mu t u)
  <= sum m (fun s => cerr01 nf k (xt s) (x t) (jaccoef_of nv c jt s) (fun e => jac t e u)).
Proof. exact predict_derivs_jaccoef_close. Qed.
Print Assumptions C39_jaccoef_close.
Theorem C39_jaccoef_values_close : forall m n nf nv k xt jt x c mu t j,
  wf nf k -> ls_nonzero k -> (t < n)%nat -> j = O ->
  Rabs (predict_y_derivs_jaccoef m n nf k xt x mu (jaccoef_of nv c jt) t j
        - predict_y_derivs_dense m n nf nv k xt jt x c mu t j)
  <= sum m (fun s => cerr0 nf k (xt s) (x t) (jaccoef_of nv c jt s)).
Proof. exact predict_y_derivs_jaccoef_close. Qed.
Print Assumptions C39_jaccoef_values_close.
Example C39_close_example : wf 3 ex_close /\ ls_nonzero ex_close.
Proof. exact (conj (proj1 ex_C32_close) (proj1 (proj2 ex_C32_close))). Qed.
(** the coefficients, whatever pivots the preconditioner draws *)
Theorem C39_fit : forall la, linalg_ok la -> forall choose m o nf k sigma x y mf np,
  all_atoms (fun _ a => psd_atom a) k -> sigma <> 0 ->
  meq m o (fst (fit_iter la choose m o nf k sigma x y mf np)) (fst (fit_dense la m o nf k sigma x y mf))
  /\ snd (fit_iter la choose m o nf k sigma x y mf np) = snd (fit_dense la m o nf k sigma x y mf).
Proof. exact fit_iter_eq. Qed.
Print Assumptions C39_fit.
Theorem C39_fit_derivs : forall la, linalg_ok la -> forall choose m nf nv k sigma x jac y mf np,
  all_atoms (fun _ a => psd_atom a) k -> wf nf k -> ls_nonzero k -> dgram_ok k -> sigma <> 0 ->
  meq (m * nv) 1 (fst (fit_derivs_iter la choose m nf nv k sigma x jac y mf np))
    (fst (fit_derivs_dense la m nf nv k sigma x jac y mf))
  /\ snd (fit_derivs_iter la choose m nf nv k sigma x jac y mf np) = snd (fit_derivs_dense la m nf nv k sigma x jac y mf).
Proof. exact fit_derivs_iter_eq. Qed.
Print Assumptions C39_fit_derivs.
Theorem C39_fit_derivs_pd : forall la, linalg_ok la -> forall m nf nv k sigma x jac, wf nf k -> ls_nonzero k ->
  (forall s t, (s < m)%nat -> (t < m)%nat -> all_atoms (fun ad a => regular_pair nf ad a (x s) (x t)) k) ->
  pd (m * nv) (noisy sigma (d01kj m m nf nv nv k x x jac jac)) -> forall choose y mf np, sigma <> 0 ->
  meq (m * nv) 1 (fst (fit_derivs_iter la choose m nf nv k sigma x jac y mf np))
    (fst (fit_derivs_dense la m nf nv k sigma x jac y mf))
  /\ snd (fit_derivs_iter la choose m nf nv k sigma x jac y mf np) = snd (fit_derivs_dense la m nf nv k sigma x jac y mf).
Proof. exact fit_derivs_iter_pd. Qed.
Print Assumptions C39_fit_derivs_pd.

(** ** C40; G is any differentiable motion of the test points whose velocity is column u of the jacobian *)
Theorem C40_derivative : forall nf k, wf nf k -> ls_nonzero k -> exact k ->
  forall m n nv nd sigma xt jt (G : R -> Mat) jac c mu t u t0, (t < n)%nat -> (u < nd)%nat ->
  (forall f, (f < nf)%nat -> is_derive (fun z => G z t f) t0 (jac t f u)) ->
  is_derive (fun z => predict_y_derivs_dense m n nf nv k xt jt (G z) c mu t O) t0
    (predict_derivs_dense m n nf nv nd k sigma xt jt (G t0) jac c 0 t u).
Proof. exact predict_y_derivs_curve. Qed.
Print Assumptions C40_derivative.
Theorem C40_operator_learning : forall nf k, wf nf k -> ls_nonzero k -> exact k ->
  forall m n nd sigma xt (G : R -> Mat) jac c mu t u t0, (t < n)%nat -> (u < nd)%nat ->
  (forall f, (f < nf)%nat -> is_derive (fun z => G z t f) t0 (jac t f u)) ->
  is_derive (fun z => predict_ol_y m nf k sigma xt (G z) c mu t O) t0
    (predict_ol_yd m n nf nd k xt (G t0) jac c (t * nd + u)%nat O).
Proof. exact predict_ol_curve. Qed.
Print Assumptions C40_operator_learning.
(** squared exponential: the same up to the factor exp(1e-12) *)
Theorem C40_squared_exponential : forall nf ad l, ad_ok nf ad -> l <> 0 ->
  let k := KAtom ad (ASE l) in
  forall m n nv nd sigma xt jt (G : R -> Mat) jac c mu t u t0, (t < n)%nat -> (u < nd)%nat ->
  (forall f, (f < nf)%nat -> is_derive (fun z => G z t f) t0 (jac t f u)) ->
  is_derive (fun z => predict_y_derivs_dense m n nf nv k xt jt (G z) c mu t O) t0
    (exp (/ 10 ^ 12) * predict_derivs_dense m n nf nv nd k sigma xt jt (G t0) jac c 0 t u) /\
  forall c' : Mat, is_derive (fun z => predict_ol_y m nf k sigma xt (G z) c' mu t O) t0
    (exp (- / 10 ^ 12) * predict_ol_yd m n nf nd k xt (G t0) jac c' (t * nd + u)%nat O).
Proof. exact predict_se_curve. Qed.
Print Assumptions C40_squared_exponential.
Example C40_example : forall t f, is_derive (fun z : R => INR t + z * INR f) 2 (INR f).
Proof. exact ex_curve. Qed.

(** ** C41 *)
Theorem C41_formula : forall la, linalg_ok la -> forall nf k sigma, all_atoms (fun _ a => psd_atom a) k ->
  forall m n xt x B,
  meq m n (mm m (noisy sigma (kk nf k xt xt)) B) (kk nf k xt x) ->
  meq n n (predict_cov la m nf k sigma xt x) (fun i j => kk nf k x x i j - mm m (tr (kk nf k xt x)) B i j).
Proof. exact predict_cov_formula. Qed.
Print Assumptions C41_formula.
Theorem C41_order : forall la, linalg_ok la -> forall nf k sigma, all_atoms (fun _ a => psd_atom a) k ->
  forall m n xt x,
  sym n (predict_cov la m nf k sigma xt x) /\ psd n (predict_cov la m nf k sigma xt x) /\
  psd n (fun i j => kk nf k x x i j - predict_cov la m nf k sigma xt x i j).
Proof. exact predict_cov_order. Qed.
Print Assumptions C41_order.
Theorem C41_more_data : forall la, linalg_ok la -> forall nf k sigma, all_atoms (fun _ a => psd_atom a) k ->
  forall m p n xt xt' x, (forall i, (i < m)%nat -> xt' i = xt i) ->
  psd n (fun i j => predict_cov la m nf k sigma xt x i j - predict_cov la (m + p) nf k sigma xt' x i j).
Proof. exact predict_cov_mono. Qed.
Print Assumptions C41_more_data.
Theorem C41_derivatives : forall la, linalg_ok la -> forall nf k sigma, all_atoms (fun _ a => psd_atom a) k ->
  wf nf k -> ls_nonzero k -> dgram_ok k -> forall m n nv nd xt jt x jac,
  let cov := predict_derivs_cov la m n nf nv nd k sigma xt jt x jac in
  (forall B, meq (m * nv) (n * nd) (mm (m * nv) (noisy sigma (d01kj m m nf nv nv k xt xt jt jt)) B)
      (d01kj m n nf nv nd k xt x jt jac) ->
    meq (n * nd) (n * nd) cov
      (fun i j => d01kj n n nf nd nd k x x jac jac i j - mm (m * nv) (tr (d01kj m n nf nv nd k xt x jt jac)) B i j)) /\
  sym (n * nd) cov /\ psd (n * nd) cov /\ psd (n * nd) (fun i j => d01kj n n nf nd nd k x x jac jac i j - cov i j).
Proof. exact predict_derivs_cov_order. Qed.
Print Assumptions C41_derivatives.
Theorem C41_values_from_derivatives : forall la, linalg_ok la -> forall nf k sigma, all_atoms (fun _ a => psd_atom a) k ->
  wf nf k -> ls_nonzero k -> exact k -> sigma <> 0 -> forall m n nv xt jt x,
  let cov := predict_y_derivs_cov la m n nf nv k sigma xt jt x in
  (forall B, meq (m * nv) n (mm (m * nv) (add_diag (sigma ^ 2) (d01kj m m nf nv nv k xt xt jt jt)) B)
      (d0kj m n nf nv k xt x jt) ->
    meq n n cov (fun i j => kk nf k x x i j - mm (m * nv) (tr (d0kj m n nf nv k xt x jt)) B i j)) /\
  sym n cov /\ psd n cov /\ psd n (fun i j => kk nf k x x i j - cov i j).
Proof. exact predict_y_derivs_cov_order. Qed.
Print Assumptions C41_values_from_derivatives.
(** squared exponentials in sums and products: as long as the noise exceeds the rounding slack of 5e-12
    per unit of squared jacobian *)
Theorem C41_values_from_derivatives_soft : forall nf k, all_atoms (fun _ a => psd_atom a) k ->
  wf nf k -> ls_nonzero k -> soft k -> forall la, linalg_ok la -> forall sigma m n nv xt jt x,
  total_dslack m nf nv k xt jt < sigma ^ 2 ->
  let cov := predict_y_derivs_cov la m n nf nv k sigma xt jt x in
  (forall B, meq (m * nv) n (mm (m * nv) (add_diag (sigma ^ 2) (d01kj m m nf nv nv k xt xt jt jt)) B)
      (d0kj m n nf nv k xt x jt) ->
    meq n n cov (fun i j => kk nf k x x i j - mm (m * nv) (tr (d0kj m n nf nv k xt x jt)) B i j)) /\
  sym n cov /\ psd n cov /\ psd n (fun i j => kk nf k x x i j - cov i j).
Proof. exact soft_y_cov. Qed.
Print Assumptions C41_values_from_derivatives_soft.

(** ** C42 *)
Theorem C42_single_output : forall la, linalg_ok la -> forall m nf k sigma x y mf b, (0 < m)%nat ->
  all_atoms (fun _ a => psd_atom a) k ->
  veq m (mv m (noisy sigma (kk nf k x x)) b) (fun i => y i O - mf m 1%nat y) ->
  INR m * lml_dense la m 1 nf k sigma x y mf
  = ln (mvn_pdf m (noisy sigma (kk nf k x x)) (fun i => y i O - mf m 1%nat y) b).
Proof. exact lml_dense_mvn. Qed.
Print Assumptions C42_single_output.
Theorem C42_derivatives : forall la, linalg_ok la -> forall m nf nv k sigma x jac y mf b, (0 < m * nv)%nat ->
  all_atoms (fun _ a => psd_atom a) k -> wf nf k -> ls_nonzero k -> dgram_ok k ->
  veq (m * nv) (mv (m * nv) (noisy sigma (d01kj m m nf nv nv k x x jac jac)) b)
    (fun i => flat nv y i O - mf (m * nv)%nat 1%nat (flat nv y)) ->
  INR (m * nv) * lml_derivs_dense la m nf nv k sigma x jac y mf
  = ln (mvn_pdf (m * nv) (noisy sigma (d01kj m m nf nv nv k x x jac jac))
         (fun i => flat nv y i O - mf (m * nv)%nat 1%nat (flat nv y)) b).
Proof. exact lml_derivs_dense_mvn. Qed.
Print Assumptions C42_derivatives.
Theorem C42_derivatives_pd : forall la, linalg_ok la -> forall m nf nv k sigma x jac, wf nf k -> ls_nonzero k ->
  (forall s t, (s < m)%nat -> (t < m)%nat -> all_atoms (fun ad a => regular_pair nf ad a (x s) (x t)) k) ->
  pd (m * nv) (noisy sigma (d01kj m m nf nv nv k x x jac jac)) -> forall y mf b, (0 < m * nv)%nat ->
  veq (m * nv) (mv (m * nv) (noisy sigma (d01kj m m nf nv nv k x x jac jac)) b)
    (fun i => flat nv y i O - mf (m * nv)%nat 1%nat (flat nv y)) ->
  INR (m * nv) * lml_derivs_dense la m nf nv k sigma x jac y mf
  = ln (mvn_pdf (m * nv) (noisy sigma (d01kj m m nf nv nv k x x jac jac))
         (fun i => flat nv y i O - mf (m * nv)%nat 1%nat (flat nv y)) b).
Proof. exact lml_derivs_mvn_pd. Qed.
Print Assumptions C42_derivatives_pd.
Theorem C42_permutation : forall la, linalg_ok la -> forall m o nf k sigma x y mf p, (0 < m)%nat ->
  all_atoms (fun _ a => psd_atom a) k -> mf = zero_mean \/ mf = data_mean ->
  (forall i, (i < m)%nat -> (p i < m)%nat) -> (forall i j, (i < m)%nat -> (j < m)%nat -> p i = p j -> i = j) ->
  lml_dense la m o nf k sigma (fun i => x (p i)) (fun i => y (p i)) mf = lml_dense la m o nf k sigma x y mf.
Proof. exact lml_dense_perm_mf. Qed.
Print Assumptions C42_permutation.
(** with several outputs the determinant and 2 pi terms are counted once instead of once per output *)
Theorem C42_multi_output : forall la, linalg_ok la -> forall m o nf k sigma x y mf B, (0 < m)%nat ->
  all_atoms (fun _ a => psd_atom a) k ->
  meq m o (mm m (noisy sigma (kk nf k x x)) B) (fun i j => y i j - mf m o y) ->
  INR m * lml_dense la m o nf k sigma x y mf
  = sum o (fun j => ln (mvn_pdf m (noisy sigma (kk nf k x x)) (fun i => y i j - mf m o y) (fun i => B i j)))
    + (INR o - 1) * (/ 2 * ln (det m (noisy sigma (kk nf k x x))) + INR m * / 2 * ln (2 * PI)).
Proof. exact lml_dense_multi. Qed.
Print Assumptions C42_multi_output.
Theorem C42_iterative : forall la, linalg_ok la -> forall m nf k sigma x y mf c ld, (0 < m)%nat ->
  all_atoms (fun _ a => psd_atom a) k ->
  meq m 1 (mm m (noisy sigma (kk nf k x x)) c) (fun i j => y i j - mf m 1%nat y) ->
  ld = ln (det m (noisy sigma (kk nf k x x))) ->
  lml_iter_of m 1 c (fun i j => y i j - mf m 1%nat y) ld = lml_dense la m 1 nf k sigma x y mf.
Proof. exact lml_iter_eq. Qed.
Print Assumptions C42_iterative.
Theorem C42_iterative_multi_output_refuted : forall la, linalg_ok la -> exists m o nf k sigma x y c,
  all_atoms (fun _ a => psd_atom a) k /\
  meq m o (mm m (noisy sigma (kk nf k x x)) c) y /\
  lml_iter_of m o c y (ln (det m (noisy sigma (kk nf k x x)))) <> lml_dense la m o nf k sigma x y zero_mean.
Proof. exact lml_iter_multi_differs. Qed.
Print Assumptions C42_iterative_multi_output_refuted.
Example C42_example : let p := fun i => (2 - i)%nat in
  (forall i, (i < 3)%nat -> (p i < 3)%nat) /\ (forall i j, (i < 3)%nat -> (j < 3)%nat -> p i = p j -> i = j).
Proof. exact ex_perm. Qed.

(** ** C43 *)
Theorem C43_inverse : forall la, linalg_ok la -> forall m p sigma F, sigma <> 0 -> forall o z,
  let P := precond_matvec la m p sigma F in
  let B := fun i j => gram p F i j + sigma ^ 2 * delta i j in
  meq m o (P (mm m B z)) z /\ meq m o (mm m B (P z)) z.
Proof. exact precond_inverse. Qed.
Print Assumptions C43_inverse.
Theorem C43_spd : forall la, linalg_ok la -> forall m p sigma F, sigma <> 0 ->
  exists M, sym m M /\ pd m M /\ forall z i j, (i < m)%nat -> precond_matvec la m p sigma F z i j = mm m M z i j.
Proof. exact precond_spd. Qed.
Print Assumptions C43_spd.

(** ** C44 *)
Theorem C44_rpcholesky : forall choose n nf x np k, all_atoms (fun _ a => psd_atom a) k ->
  (forall i p, (choose i p < n)%nat) ->
  let F := fst (rpcholesky choose n nf x np k) in
  let piv := snd (rpcholesky choose n nf x np k) in
  psd n (fun a b => kk nf k x x a b - gram np F a b) /\
  (forall l j, (l < np)%nat -> (j < n)%nat -> (piv l < n)%nat /\
     (kk nf k x x (piv l) j - gram np F (piv l) j) ^ 2
     <= 2 * / 10 ^ 6 * sqrt (kk nf k x x (piv l) (piv l)) * kk nf k x x j j).
Proof. exact rpcholesky_ok. Qed.
Print Assumptions C44_rpcholesky.
Theorem C44_rpcholesky_derivs : forall choose n nf nv x jac np k, all_atoms (fun _ a => psd_atom a) k ->
  wf nf k -> ls_nonzero k -> dgram_ok k -> (forall i p, (choose i p < n * nv)%nat) ->
  let F := fst (rpcholesky_derivs choose n nf nv x jac np k) in
  let piv := snd (rpcholesky_derivs choose n nf nv x jac np k) in
  let K := d01kj n n nf nv nv k x x jac jac in
  psd (n * nv) (fun a b => K a b - gram np F a b) /\
  (forall l j, (l < np)%nat -> (j < n * nv)%nat -> (piv l < n * nv)%nat /\
     (K (piv l) j - gram np F (piv l) j) ^ 2 <= 2 * / 10 ^ 6 * sqrt (K (piv l) (piv l)) * K j j).
Proof. exact rpcholesky_derivs_ok. Qed.
Print Assumptions C44_rpcholesky_derivs.
(** the loop, at every intermediate step, for any positive semidefinite matrix K *)
Theorem C44_loop : forall n np K row diag0 choose, sym n K -> psd n K ->
  (forall s j, (s < n)%nat -> (j < n)%nat -> row s j = K s j) -> (forall j, (j < n)%nat -> diag0 j = K j j) ->
  (forall i p, (choose i p < n)%nat) -> forall i, (i <= np)%nat ->
  let s := rp_loop jit6 n np diag0 row choose i in
  psd n (fun a b => K a b - gram np (rp_fmat s) a b) /\
  (forall j, (j < n)%nat -> rp_diag s j = K j j - gram np (rp_fmat s) j j) /\
  (forall j, (j < n)%nat -> 0 <= rp_diag s j).
Proof. exact loop_invariant. Qed.
Print Assumptions C44_loop.
Theorem C44_diagonal_decreases : forall n np K row diag0 choose, sym n K -> psd n K ->
  (forall s j, (s < n)%nat -> (j < n)%nat -> row s j = K s j) -> (forall j, (j < n)%nat -> diag0 j = K j j) ->
  (forall i p, (choose i p < n)%nat) -> forall i j, (i < np)%nat -> (j < n)%nat ->
  rp_diag (rp_loop jit6 n np diag0 row choose (S i)) j <= rp_diag (rp_loop jit6 n np diag0 row choose i) j.
Proof. exact loop_decreasing'. Qed.
Print Assumptions C44_diagonal_decreases.
(** with the jitter 1e-6 set to 0 and pivots of positive residual: the Nystrom approximation *)
Theorem C44_nystrom : forall n np K row diag0 choose, sym n K -> psd n K ->
  (forall s j, (s < n)%nat -> (j < n)%nat -> row s j = K s j) -> (forall j, (j < n)%nat -> diag0 j = K j j) ->
  (forall i p, (choose i p < n)%nat) -> forall i, (i <= np)%nat ->
  (forall l, (l < i)%nat -> let s := rp_loop 0 n np diag0 row choose l in
     0 < rp_diag s (choose l (fun j => rp_diag s j / sum n (rp_diag s)))) ->
  let s := rp_loop 0 n np diag0 row choose i in
  (forall l j, (l < i)%nat -> (j < n)%nat -> gram np (rp_fmat s) (rp_piv s l) j = K (rp_piv s l) j) /\
  (forall M, (forall l b, (l < i)%nat -> (b < n)%nat ->
       sum i (fun l' => K (rp_piv s l) (rp_piv s l') * M l' b) = K (rp_piv s l) b) ->
     forall a b, (a < n)%nat -> (b < n)%nat -> gram np (rp_fmat s) a b = sum i (fun l => K a (rp_piv s l) * M l b)).
Proof. exact loop_nystrom. Qed.
Print Assumptions C44_nystrom.
Example C44_example : forall i (p : Vec), ((fun (i : nat) (_ : Vec) => (i mod 3)%nat) i p < 3)%nat.
Proof. exact ex_choose. Qed.

(** ** C56 *)
Theorem C56_derivative_gram : forall n nf nv k X J,
  all_atoms (fun _ a => psd_atom a) k -> wf nf k -> ls_nonzero k -> dgram_ok k ->
  psd (n * nv) (d01kj n n nf nv nv k X X J J).
Proof. exact dgram_psd. Qed.
Print Assumptions C56_derivative_gram.
(** joint matrix of values at x and derivatives at xt *)
Theorem C56_joint : forall nf k, all_atoms (fun _ a => psd_atom a) k -> wf nf k -> ls_nonzero k -> exact k ->
  forall m n nv xt jt x, psd (m * nv + n) (fun i j =>
    match Nat.ltb i (m * nv), Nat.ltb j (m * nv) with
    | true, true => d01kj m m nf nv nv k xt xt jt jt i j
    | true, false => d0kj m n nf nv k xt x jt i (j - m * nv)%nat
    | false, true => d1kj n m nf nv k x xt jt (i - m * nv)%nat j
    | false, false => kk nf k x x (i - m * nv)%nat (j - m * nv)%nat
    end).
Proof. exact joint_psd. Qed.
Print Assumptions C56_joint.
(** products of squared exponentials, Matern32: positive semidefinite up to the slack the code's jitter
    and clamp leave (5e-12, resp. 3e-18, per unit of squared jacobian over squared length scale) *)
Theorem C56_slack : forall n nf nv k X J,
  all_atoms (fun _ a => psd_atom a) k -> wf nf k -> ls_nonzero k -> gram_soft k -> m32_separated nf k n X -> forall c,
  - (total_dslack n nf nv k X J * sum (n * nv) (fun i => c i ^ 2))
  <= qf (n * nv) (d01kj n n nf nv nv k X X J J) c.
Proof. exact gram_soft_dgram. Qed.
Print Assumptions C56_slack.
(** so the training matrix is positive definite, and Cholesky succeeds, once the noise exceeds the slack *)
Theorem C56_slack_pd : forall n nf nv k sigma X J,
  all_atoms (fun _ a => psd_atom a) k -> wf nf k -> ls_nonzero k -> gram_soft k -> m32_separated nf k n X ->
  total_dslack n nf nv k X J < sigma ^ 2 + / 10 ^ 10 ->
  pd (n * nv) (noisy sigma (d01kj n n nf nv nv k X X J J)).
Proof. exact gram_soft_pd. Qed.
Print Assumptions C56_slack_pd.
Theorem C56_joint_slack : forall nf k, all_atoms (fun _ a => psd_atom a) k -> wf nf k -> ls_nonzero k -> soft k ->
  forall m n nv xt jt x c,
  - (total_dslack m nf nv k xt jt * sum (m * nv) (fun i => c i ^ 2))
  <= qf (m * nv + n) (fun i j =>
    match Nat.ltb i (m * nv), Nat.ltb j (m * nv) with
    | true, true => d01kj m m nf nv nv k xt xt jt jt i j
    | true, false => d0kj m n nf nv k xt x jt i (j - m * nv)%nat
    | false, true => d1kj n m nf nv k x xt jt (i - m * nv)%nat j
    | false, false => kk nf k x x (i - m * nv)%nat (j - m * nv)%nat
    end) c.
Proof. exact soft_jmat. Qed.
Print Assumptions C56_joint_slack.
Example C56_slack_example : (all_atoms (fun _ a => psd_atom a) ex_soft /\ wf 2 ex_soft /\ ls_nonzero ex_soft
  /\ gram_soft ex_soft /\ m32_separated 2 ex_soft 3 (fun s _ => INR s)) /\
  total_dslack 3 2 2 ex_soft (fun s _ => INR s) (fun _ f v => if Nat.eqb f v then 1 else 0) < 1.
Proof. exact (conj ex_soft_ok ex_slack). Qed.
(** not for Matern12: its process has no derivative *)
Theorem C56_matern12_refuted : exists n nf nv k X J, wf nf k /\ ls_nonzero k /\ all_atoms (fun _ a => psd_atom a) k /\
  ~ psd (n * nv) (d01kj n n nf nv nv k X X J J).
Proof. exact m12_gram_not_psd. Qed.
Print Assumptions C56_matern12_refuted.
