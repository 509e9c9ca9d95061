(** Models the loss of operator learning, models/_gpr.py:940-988. fit_ol and predict_ol are in Model/GPR.v. *)
From Coq Require Import Reals Arith.
From Verif Require Import Base.Sums Base.Mat Model.Arrays Model.Kernels Model.LinAlg Model.Operations Model.GPR.
Open Scope R_scope.

(** y_derivs.reshape(m, na * jv) of an array of shape (m, na, jv) *)
Definition last2 (jv : nat) (yd : Ten) : Mat := fun s v => yd s (v / jv)%nat (v mod jv)%nat.
(** _gpr.py:940-988 _mse; y of shape (m, 1), y_derivs of shape (m, na, jv), jacobian of shape (m, nf, na * jv);
    (U, s, Vt) is what jnp.linalg.svd returns *)
Definition mse (la : linalg) (U : Mat) (s : Vec) (Vt : Mat) (m nf na jv : nat) (k : kexp) (sigma : R)
    (x y : Mat) (jac yd : Ten) (mean_function : nat -> nat -> Mat -> R) (coeff : R) : R :=
  let nv := (na * jv)%nat in
  let mu := mean_function m 1%nat y in
  let y : Mat := fun i j => y i j - mu in
  let y_derivs := flat nv (last2 jv yd) in
  let y_tilde := vcat m y y_derivs in
  let Aeff := mm m (diagm s) Vt in
  let beff := mm (m + m * nv) (tr U) y_tilde in
  let c := la_solve la m Aeff beff in
  let K_mm := A_lhs nf k sigma x x false in
  let mu : Mat := fun i _ => mm m (tr c) K_mm O i in
  let K_nm := d1kj m m nf nv k x x jac in
  let y_pred_derivs : Mat := mm m (tr c) K_nm in
  sum m (fun i => (mu i O - y i O) ^ 2) / INR m
  + coeff * (sum (m * na) (fun r => sum jv (fun w =>
      (y_pred_derivs O (r * jv + w)%nat - y_derivs (r * jv + w)%nat O) ^ 2)) / INR (m * na)).
