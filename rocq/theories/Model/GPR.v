(** Models gpx/models/_gpr.py (dense and iterative algorithms) and gpx/mean_functions.py.
    y and c have shape (m, o); mean functions return a scalar. Shapes are those the code requires
    (see Model/Shapes.v for the shape checks); kernel parameter values are inside the kernel. *)
From Coq Require Import Reals Arith List Bool.
From Verif Require Import Base.Sums Base.Mat Model.Arrays Model.Kernels Model.LinAlg Model.Operations
  Model.RPCholesky.
Open Scope R_scope.

(** the 1e-10 of _gpr.py:61, 89, 116, 149 *)
Definition jit10 : R := / 10 ^ 10.

(** mean_functions.py:24-29; arguments are the shape (m, o) and the values *)
Definition zero_mean (m o : nat) (y : Mat) : R := 0.
Definition data_mean (m o : nat) (y : Mat) : R :=
  sum m (fun i => sum o (fun j => y i j)) / (INR m * INR o).

(** _gpr.py:40-64 _A_lhs *)
Definition A_lhs (nf : nat) (k : kexp) (sigma : R) (x1 x2 : Mat) (noise : bool) : Mat :=
  if noise then fun i j => kk nf k x1 x2 i j + (sigma ^ 2 + jit10) * eye i j else kk nf k x1 x2.

(** _gpr.py:67-91 _A_derivs_lhs; n1, n2 samples, nv1, nv2 jacobian columns *)
Definition A_derivs_lhs (n1 n2 nf nv1 nv2 : nat) (k : kexp) (sigma : R) (x1 : Mat) (jac1 : Ten)
    (x2 : Mat) (jac2 : Ten) (noise : bool) : Mat :=
  if noise then fun i j => d01kj n1 n2 nf nv1 nv2 k x1 x2 jac1 jac2 i j + (sigma ^ 2 + jit10) * eye i j
  else d01kj n1 n2 nf nv1 nv2 k x1 x2 jac1 jac2.

(** the samples of an array of n rows, as looped over by scan, and recover_first_axis *)
Definition samples (n : nat) (x : Mat) : list Vec := map x (seq 0 n).
Definition samples2 (n : nat) (x : Mat) (jac : Ten) : list (Vec * Mat) :=
  map (fun s => (x s, jac s)) (seq 0 n).
Definition one_row (v : Vec) : Mat := fun _ => v.
Definition one_jac (j : Mat) : Ten := fun _ => j.

(** _gpr.py:94-119 _Ax_lhs_fun *)
Definition Ax_lhs_fun (n1 n2 nf : nat) (k : kexp) (sigma : R) (x1 x2 : Mat) (noise : bool)
    : Mat -> Mat :=
  rowfun_to_matvec 1 n2 (fun x1s => kk nf k (one_row x1s) x2) (samples n1 x1) noise
    (sigma ^ 2 + jit10).

(** _gpr.py:122-152 _Ax_derivs_lhs_fun *)
Definition Ax_derivs_lhs_fun (n1 n2 nf nv1 nv2 : nat) (k : kexp) (sigma : R) (x1 : Mat) (jac1 : Ten)
    (x2 : Mat) (jac2 : Ten) (noise : bool) : Mat -> Mat :=
  rowfun_to_matvec nv1 (n2 * nv2)
    (fun xj => d01kj 1 n2 nf nv1 nv2 k (one_row (fst xj)) x2 (one_jac (snd xj)) jac2)
    (samples2 n1 x1 jac1) noise (sigma ^ 2 + jit10).

(** _gpr.py:155-177 _Kx_derivs1_fun; init_val is the array itself, so row_fun receives one sample *)
Definition Kx_derivs1_fun (n1 n2 nf nv : nat) (k : kexp) (x1 x2 : Mat) (jac2 : Ten) : Mat -> Mat :=
  rowfun_to_matvec 1 (n2 * nv) (fun x1s => d1kj 1 n2 nf nv k (one_row x1s) x2 jac2)
    (samples n1 x1) false 0.

(** _gpr.py:180-216 (and 219-255) the matvec of the preconditioners, given the factor fmat of
    shape (m, p) *)
Definition precond_matvec (la : linalg) (m p : nat) (sigma : R) (fmat : Mat) : Mat -> Mat :=
  let P_kk := la_inv la p (fun i j => sigma ^ 2 * eye i j + mm m (tr fmat) fmat i j) in
  fun z =>
    let res := mm m (tr fmat) z in
    let res := mm p P_kk res in
    let res : Mat := fun i j => - / sigma ^ 2 * mm p fmat res i j in
    fun i j => res i j + / sigma ^ 2 * z i j.
(** _gpr.py:180 _precond_rpcholesky *)
Definition precond_rpcholesky (la : linalg) (choose : nat -> Vec -> nat) (m nf : nat) (k : kexp)
    (sigma : R) (x1 : Mat) (n_pivots : nat) : Mat -> Mat :=
  precond_matvec la m n_pivots sigma (fst (rpcholesky choose m nf x1 n_pivots k)).
(** _gpr.py:219 _precond_rpcholesky_derivs *)
Definition precond_rpcholesky_derivs (la : linalg) (choose : nat -> Vec -> nat) (m nf nv : nat)
    (k : kexp) (sigma : R) (x1 : Mat) (jac1 : Ten) (n_pivots : nat) : Mat -> Mat :=
  precond_matvec la (m * nv) n_pivots sigma (fst (rpcholesky_derivs choose m nf nv x1 jac1 n_pivots k)).

(** _gpr.py:263-283 _fit_dense *)
Definition fit_dense (la : linalg) (m o nf : nat) (k : kexp) (sigma : R) (x y : Mat)
    (mean_function : nat -> nat -> Mat -> R) : Mat * R :=
  let mu := mean_function m o y in
  let y : Mat := fun i j => y i j - mu in
  let C_mm := A_lhs nf k sigma x x true in
  let c := la_solve la m C_mm y in
  (c, mu).

(** _gpr.py:286-311 _fit_iter *)
Definition fit_iter (la : linalg) (choose : nat -> Vec -> nat) (m o nf : nat) (k : kexp) (sigma : R)
    (x y : Mat) (mean_function : nat -> nat -> Mat -> R) (n_pivots : nat) : Mat * R :=
  let mu := mean_function m o y in
  let y : Mat := fun i j => y i j - mu in
  let matvec := Ax_lhs_fun m m nf k sigma x x true in
  let precond := precond_rpcholesky la choose m nf k sigma x n_pivots in
  let c := la_cg la m o matvec y precond in
  (c, mu).

(** y.reshape(-1, 1) of an (m, nv) array *)
Definition flat (nv : nat) (y : Mat) : Mat := fun r _ => y (r / nv)%nat (r mod nv)%nat.

(** _gpr.py:314-345 _fit_derivs_dense; y has shape (m, nv) *)
Definition fit_derivs_dense (la : linalg) (m nf nv : nat) (k : kexp) (sigma : R) (x : Mat) (jac : Ten)
    (y : Mat) (mean_function : nat -> nat -> Mat -> R) : Mat * R :=
  let y := flat nv y in
  let mu := mean_function (m * nv)%nat 1%nat y in
  let y : Mat := fun i j => y i j - mu in
  let C_mm := A_derivs_lhs m m nf nv nv k sigma x jac x jac true in
  let c := la_solve la (m * nv) C_mm y in
  (c, mu).

(** _gpr.py:348-391 _fit_derivs_iter *)
Definition fit_derivs_iter (la : linalg) (choose : nat -> Vec -> nat) (m nf nv : nat) (k : kexp)
    (sigma : R) (x : Mat) (jac : Ten) (y : Mat) (mean_function : nat -> nat -> Mat -> R)
    (n_pivots : nat) : Mat * R :=
  let y := flat nv y in
  let mu := mean_function (m * nv)%nat 1%nat y in
  let y : Mat := fun i j => y i j - mu in
  let matvec := Ax_derivs_lhs_fun m m nf nv nv k sigma x jac x jac true in
  let precond := precond_rpcholesky_derivs la choose m nf nv k sigma x jac n_pivots in
  let c := la_cg la (m * nv) 1 matvec y precond in
  (c, mu).

(** jnp.concatenate((A, B)) for A with n rows *)
Definition vcat (n : nat) (A B : Mat) : Mat := fun i j => if Nat.ltb i n then A i j else B (i - n)%nat j.
(** jnp.diag(s) *)
Definition diagm (s : Vec) : Mat := fun i j => if Nat.eqb i j then s i else 0.

(** _gpr.py:394-429 _fit_ol: the stacked matrix and right-hand side *)
Definition ol_matrix (m nf nv : nat) (k : kexp) (sigma : R) (x : Mat) (jac : Ten) : Mat :=
  vcat m (A_lhs nf k sigma x x true) (d0kj m m nf nv k x x jac).
Definition ol_rhs (m nv : nat) (y yd : Mat) (mu : R) : Mat :=
  vcat m (fun i j => y i j - mu) (flat nv yd).
(** _gpr.py:394-429 _fit_ol; (U, s, Vt) is what jnp.linalg.svd(C_tilde, full_matrices=False) returns *)
Definition fit_ol (la : linalg) (U : Mat) (s : Vec) (Vt : Mat) (m nf nv : nat) (k : kexp) (sigma : R)
    (x y yd : Mat) (jac : Ten) (mean_function : nat -> nat -> Mat -> R) : Mat * R :=
  let mu := mean_function m 1%nat y in
  let y_tilde := ol_rhs m nv y yd mu in
  let Aeff := mm m (diagm s) Vt in
  let beff := mm (m + m * nv) (tr U) y_tilde in
  (la_solve la m Aeff beff, mu).

(** _gpr.py:435-464 _predict_dense; m training samples, n new ones *)
Definition predict_dense (m nf : nat) (k : kexp) (sigma : R) (x_train x c : Mat) (mu : R) : Mat :=
  let K_mn := A_lhs nf k sigma x_train x false in
  fun t j => mu + mm m (tr K_mn) c t j.
Definition predict_cov (la : linalg) (m nf : nat) (k : kexp) (sigma : R) (x_train x : Mat) : Mat :=
  let K_mn := A_lhs nf k sigma x_train x false in
  let C_mm := A_lhs nf k sigma x_train x_train true in
  let L_m := la_chol la m C_mm in
  let G_mn := la_tri la m L_m K_mn in
  let C_nn := A_lhs nf k sigma x x false in
  fun i j => C_nn i j - mm m (tr G_mn) G_mn i j.

(** _gpr.py:467-486 _predict_iter *)
Definition predict_iter (m n nf : nat) (k : kexp) (sigma : R) (x_train x c : Mat) (mu : R) : Mat :=
  let matvec := Ax_lhs_fun n m nf k sigma x x_train false in
  fun t j => mu + matvec c t j.

(** mu.reshape(ns, nd) of an (ns*nd, 1) array *)
Definition unflat (nd : nat) (v : Mat) : Mat := fun t u => v (t * nd + u)%nat O.

(** _gpr.py:489-568 _predict_derivs_dense without jaccoef *)
Definition predict_derivs_dense (m n nf nv nd : nat) (k : kexp) (sigma : R) (x_train : Mat)
    (jac_train : Ten) (x : Mat) (jac : Ten) (c : Mat) (mu : R) : Mat :=
  let K_mn := A_derivs_lhs m n nf nv nd k sigma x_train jac_train x jac false in
  unflat nd (fun t j => mu + mm (m * nv) (tr K_mn) c t j).
(** with jaccoef, _gpr.py:519-531 *)
Definition predict_derivs_jaccoef (m n nf nd : nat) (k : kexp) (x_train x : Mat) (jac : Ten)
    (mu : R) (jaccoef : Mat) : Mat :=
  unflat nd (fun r _ => mu + sum m (fun s => d01kjc m n nf nd k x_train x jaccoef jac s r)).
(** covariance, _gpr.py:544-564 *)
Definition predict_derivs_cov (la : linalg) (m n nf nv nd : nat) (k : kexp) (sigma : R) (x_train : Mat)
    (jac_train : Ten) (x : Mat) (jac : Ten) : Mat :=
  let K_mn := A_derivs_lhs m n nf nv nd k sigma x_train jac_train x jac false in
  let C_mm := A_derivs_lhs m m nf nv nv k sigma x_train jac_train x_train jac_train true in
  let L_m := la_chol la (m * nv) C_mm in
  let G_mn := la_tri la (m * nv) L_m K_mn in
  let C_nn := A_derivs_lhs n n nf nd nd k sigma x jac x jac false in
  fun i j => C_nn i j - mm (m * nv) (tr G_mn) G_mn i j.

(** _gpr.py:571-605 _predict_derivs_iter *)
Definition predict_derivs_iter (m n nf nv nd : nat) (k : kexp) (sigma : R) (x_train : Mat)
    (jac_train : Ten) (x : Mat) (jac : Ten) (c : Mat) (mu : R) : Mat :=
  let matvec := Ax_derivs_lhs_fun n m nf nd nv k sigma x jac x_train jac_train false in
  unflat nd (fun t j => mu + matvec c t j).

(** _gpr.py:608-659 _predict_y_derivs_dense without jaccoef *)
Definition predict_y_derivs_dense (m n nf nv : nat) (k : kexp) (x_train : Mat) (jac_train : Ten)
    (x c : Mat) (mu : R) : Mat :=
  let K_mn := d0kj m n nf nv k x_train x jac_train in
  fun t j => mu + mm (m * nv) (tr K_mn) c t j.
(** with jaccoef, _gpr.py:631-639 (o = 1) *)
Definition predict_y_derivs_jaccoef (m n nf : nat) (k : kexp) (x_train x : Mat) (mu : R)
    (jaccoef : Mat) : Mat :=
  fun t _ => mu + sum m (fun s => d0kjc m n nf k x_train x jaccoef s t).
(** covariance, _gpr.py:645-657; the noise is sigma**2 without the 1e-10 *)
Definition predict_y_derivs_cov (la : linalg) (m n nf nv : nat) (k : kexp) (sigma : R) (x_train : Mat)
    (jac_train : Ten) (x : Mat) : Mat :=
  let K_mn := d0kj m n nf nv k x_train x jac_train in
  let C_mm : Mat := fun i j =>
    d01kj m m nf nv nv k x_train x_train jac_train jac_train i j + sigma ^ 2 * eye i j in
  let L_m := la_chol la (m * nv) C_mm in
  let G_mn := la_tri la (m * nv) L_m K_mn in
  fun i j => kk nf k x x i j - mm (m * nv) (tr G_mn) G_mn i j.

(** _gpr.py:662-690 _predict_y_derivs_iter *)
Definition predict_y_derivs_iter (m n nf nv : nat) (k : kexp) (x_train : Mat) (jac_train : Ten)
    (x c : Mat) (mu : R) : Mat :=
  let matvec := Kx_derivs1_fun n m nf nv k x x_train jac_train in
  fun t j => mu + matvec c t j.

(** _gpr.py:693-730 _predict_ol, full_covariance=False *)
Definition predict_ol_y (m nf : nat) (k : kexp) (sigma : R) (x_train x c : Mat) (mu : R) : Mat :=
  let K_mn := A_lhs nf k sigma x_train x false in
  fun t _ => mu + mm m (tr c) K_mn O t.
Definition predict_ol_yd (m n nf nd : nat) (k : kexp) (x_train x : Mat) (jac : Ten) (c : Mat) : Mat :=
  let K_mn := d1kj m n nf nd k x_train x jac in
  fun r _ => mm m (tr c) K_mn O r.
(** _gpr.py:718-728: the covariance uses K_mn after it was overwritten by the derivative kernel,
    so G_mn.T @ G_mn has shape (n*nd, n*nd) and is subtracted from an (n, n) array *)
Definition predict_ol_cov (la : linalg) (m n nf nd : nat) (k : kexp) (sigma : R) (x_train x : Mat)
    (jac : Ten) : Mat :=
  let K_mn := d1kj m n nf nd k x_train x jac in
  let C_mm := A_lhs nf k sigma x_train x_train true in
  let G_mn := la_tri la m (la_chol la m C_mm) K_mn in
  fun i j => A_lhs nf k sigma x x false i j - mm m (tr G_mn) G_mn i j.

(** the common end of _gpr.py:756-768 and 862-870: given A, the centred y of shape (m, o) *)
Definition lml_of (la : linalg) (m o : nat) (C_mm : Mat) (y : Mat) : R :=
  let L_m := la_chol la m C_mm in
  let cy := la_tri la m L_m y in
  let mll := - / 2 * sum m (fun i => sum o (fun j => (cy i j) ^ 2)) in
  let mll := mll - sum m (fun i => ln (L_m i i)) in
  let mll := mll - INR m * / 2 * ln (2 * PI) in
  mll / INR m.
(** _gpr.py:738-770 _lml_dense *)
Definition lml_dense (la : linalg) (m o nf : nat) (k : kexp) (sigma : R) (x y : Mat)
    (mean_function : nat -> nat -> Mat -> R) : R :=
  let mu := mean_function m o y in
  lml_of la m o (A_lhs nf k sigma x x true) (fun i j => y i j - mu).
(** _gpr.py:825-871 _lml_derivs_dense *)
Definition lml_derivs_dense (la : linalg) (m nf nv : nat) (k : kexp) (sigma : R) (x : Mat) (jac : Ten)
    (y : Mat) (mean_function : nat -> nat -> Mat -> R) : R :=
  let y := flat nv y in
  let mu := mean_function (m * nv)%nat 1%nat y in
  lml_of la (m * nv) 1 (A_derivs_lhs m m nf nv nv k sigma x jac x jac true) (fun i j => y i j - mu).

(** _gpr.py:773-822 _lml_iter and 874-937 _lml_derivs_iter, common part; logdet is the value returned
    by lanczos_logdet (Model/Lanczos.v), c the coefficients, y the centred targets *)
Definition lml_iter_of (m o : nat) (c y : Mat) (logdet : R) : R :=
  let mll := - / 2 * sum o (fun a => sum o (fun b => mm m (tr y) c a b)) in
  let mll := mll - / 2 * logdet in
  let mll := mll - INR m * / 2 * ln (2 * PI) in
  mll / INR m.

(** models/gpr.py:470-475 fit_derivs: jaccoef = einsum("sv,sfv->sf", c.reshape(ns, nv), jacobian) *)
Definition jaccoef_of (nv : nat) (c : Mat) (jac : Ten) : Mat :=
  fun s f => sum nv (fun v => c (s * nv + v)%nat O * jac s f v).
