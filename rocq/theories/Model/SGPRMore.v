(** Models the rest of gpx/models/_sgpr.py (741-829) and gpx/models/_sgpr_rpchol.py (138-475).
    The prediction functions of _sgpr_rpchol.py (287-430) call those of _sgpr.py with the same arguments;
    _predict_y_derivs_dense and _predict_y_derivs_iter ignore full_covariance. *)
From Coq Require Import Reals Arith Bool.
From Verif Require Import Base.Sums Base.Mat Model.Arrays Model.Kernels Model.LinAlg Model.Operations Model.RPCholesky
  Model.GPR Model.SGPR.
Open Scope R_scope.

(** _sgpr.py:741-784 _lml_derivs_dense, with m inducing points and n samples, at least one of each.
    eye(m) is added to a matrix of m*nv rows: same shape if nv = 1, broadcast if m = 1, an error otherwise.
    y keeps its shape (n, nd), so solve_triangular(L_n, y) needs n*nd = n rows. None is the raised error. *)
Definition sg_lml_derivs_dense (la : linalg) (m n nf nv nd : nat) (k : kexp) (sigma : R) (x_locs : Mat) (jac_locs : Ten)
    (x y : Mat) (jac : Ten) (mean_function : nat -> nat -> Mat -> R) : option R :=
  let mu := mean_function n nd y in
  let y : Mat := fun i j => y i j - mu in
  let K_mm := d01kj m m nf nv nv k x_locs x_locs jac_locs jac_locs in
  let K_mn := d01kj m n nf nv nd k x_locs x jac_locs jac in
  if Nat.eqb nd 1 && (Nat.eqb nv 1 || Nat.eqb m 1) then
    let eye_m : Mat := if Nat.eqb nv 1 then eye else fun _ _ => 1 in
    let L_m := la_chol la (m * nv) (fun i j => K_mm i j + jit10 * eye_m i j) in
    let G_mn := la_tri la (m * nv) L_m K_mn in
    let C_nn : Mat := fun i j => mm (m * nv) (tr G_mn) G_mn i j + sigma ^ 2 * eye i j + jit10 * eye i j in
    Some (lml_of la n nd C_nn y)
  else None.
(** _sgpr.py:787-829 _lml_derivs_iter; logdet is the value of lanczos_logdet *)
Definition sg_lml_derivs_iter (la : linalg) (m n nf nd : nat) (k : kexp) (sigma : R) (x_locs : Mat) (jac_locs : Ten)
    (x y : Mat) (jac : Ten) (mean_function : nat -> nat -> Mat -> R) (logdet : R) : R :=
  let y := flat nd y in
  let mu := mean_function (n * nd)%nat 1%nat y in
  let y : Mat := fun i j => y i j - mu in
  let matvec := sg_Hx_derivs_fun la m n nf nd k sigma x_locs jac_locs x jac in
  lml_iter_of (n * nd) 1 (la_cg la (n * nd) 1 matvec y no_precond) y logdet.

(** _sgpr_rpchol.py:138-173 _fit_derivs_iter *)
Definition rp_fit_derivs_iter (la : linalg) (choose : nat -> Vec -> nat) (n nf nd n_locs : nat) (k : kexp) (sigma : R)
    (x y : Mat) (jac : Ten) (mean_function : nat -> nat -> Mat -> R) : Mat * R * Mat * Ten :=
  let piv := rp_locs choose n nf k x n_locs in
  let x_locs : Mat := fun l => x (piv l) in
  let jac_locs : Ten := fun l => jac (piv l) in
  (sg_fit_derivs_iter la n_locs n nf nd nd k sigma x_locs jac_locs x y jac mean_function, x_locs, jac_locs).
(** _sgpr_rpchol.py:211-245 _lml_iter *)
Definition rp_lml_iter (la : linalg) (choose : nat -> Vec -> nat) (n o nf n_locs : nat) (k : kexp) (sigma : R)
    (x y : Mat) (mean_function : nat -> nat -> Mat -> R) (logdet : R) : R :=
  let x_locs : Mat := fun l => x (rp_locs choose n nf k x n_locs l) in
  sg_lml_iter la n_locs n o nf k sigma x_locs x y mean_function logdet.
(** _sgpr_rpchol.py:248-284 _lml_derivs_dense *)
Definition rp_lml_derivs_dense (la : linalg) (choose : nat -> Vec -> nat) (n nf nd n_locs : nat) (k : kexp) (sigma : R)
    (x y : Mat) (jac : Ten) (mean_function : nat -> nat -> Mat -> R) : option R :=
  let piv := rp_locs choose n nf k x n_locs in
  let x_locs : Mat := fun l => x (piv l) in
  let jac_locs : Ten := fun l => jac (piv l) in
  sg_lml_derivs_dense la n_locs n nf nd nd k sigma x_locs jac_locs x y jac mean_function.
(** _sgpr_rpchol.py:433-475 _lml_derivs_iter *)
Definition rp_lml_derivs_iter (la : linalg) (choose : nat -> Vec -> nat) (n nf nd n_locs : nat) (k : kexp) (sigma : R)
    (x y : Mat) (jac : Ten) (mean_function : nat -> nat -> Mat -> R) (logdet : R) : R :=
  let piv := rp_locs choose n nf k x n_locs in
  let x_locs : Mat := fun l => x (piv l) in
  let jac_locs : Ten := fun l => jac (piv l) in
  sg_lml_derivs_iter la n_locs n nf nd k sigma x_locs jac_locs x y jac mean_function logdet.
