(** Models gpx/models/_sgpr.py and gpx/models/_sgpr_rpchol.py. m inducing points x_locs, n samples x,
    y and c have o columns. Shapes are those for which the code runs (Model/Shapes.v has the others);
    the random choices of rpcholesky are the argument choose. *)
From Coq Require Import Reals Arith List.
From Verif Require Import Base.Sums Base.Mat Model.Arrays Model.Kernels Model.LinAlg Model.Operations
  Model.RPCholesky Model.GPR.
Open Scope R_scope.

(** _sgpr.py:40-61 _A_lhs, given K_mn of shape (m, n) and K_mm *)
Definition sg_lhs (n : nat) (sigma : R) (K_mm K_mn : Mat) : Mat :=
  fun i j => sigma ^ 2 * K_mm i j + mm n K_mn (tr K_mn) i j + jit10 * eye i j.
Definition sg_A_lhs (n nf : nat) (k : kexp) (sigma : R) (x1 x2 : Mat) : Mat * Mat :=
  let K_mn := kk nf k x1 x2 in
  (sg_lhs n sigma (kk nf k x1 x1) K_mn, K_mn).
(** _sgpr.py:64-93 _A_derivs_lhs; m, n samples with nv and nd jacobian columns *)
Definition sg_A_derivs_lhs (m n nf nv nd : nat) (k : kexp) (sigma : R) (x1 : Mat) (jac1 : Ten)
    (x2 : Mat) (jac2 : Ten) : Mat * Mat :=
  let K_mn := d01kj m n nf nv nd k x1 x2 jac1 jac2 in
  (sg_lhs (n * nd) sigma (d01kj m m nf nv nv k x1 x1 jac1 jac1) K_mn, K_mn).

(** jax.vmap(f, out_axes=2)(xs): the results f(xs[s]) along the last axis *)
Definition stack2 {X : Type} (f : X -> Mat) (xs : nat -> X) : Ten := fun a b s => f (xs s) a b.
(** T.reshape(_, cols) of an array of shape (_, d2, d3), row-major *)
Definition reshape_rows (d2 d3 cols : nat) (T : Ten) : Mat :=
  fun r c => let q := (r * cols + c)%nat in T (q / (d2 * d3))%nat ((q / d3) mod d2)%nat (q mod d3)%nat.

(** _sgpr.py:96-142 _Ax_lhs_fun *)
Definition sg_Ax_lhs_fun (m n nf : nat) (k : kexp) (sigma : R) (x1 x2 : Mat) : (Mat -> Mat) * (Mat -> Mat) :=
  let row_fun_lhs (x1s : Vec) : Mat :=
    let kernel_row_1 : Mat := fun i j => kk nf k (one_row x1s) x1 i j * sigma ^ 2 in
    let f (x2s : Vec) : Mat := mm n (kk nf k (one_row x1s) x2) (kk nf k x2 (one_row x2s)) in
    let kernel_row_2 := reshape_rows 1 m m (stack2 f x1) in
    fun i j => kernel_row_1 i j + kernel_row_2 i j in
  let row_fun_rhs (x1s : Vec) : Mat := kk nf k (one_row x1s) x2 in
  (rowfun_to_matvec 1 m row_fun_lhs (samples m x1) true jit10,
   rowfun_to_matvec 1 n row_fun_rhs (samples m x1) false 0).
(** _sgpr.py:145-201 _Ax_derivs_lhs_fun; jacobian1 has nv columns, jacobian2 nd *)
Definition sg_Ax_derivs_lhs_fun (m n nf nv nd : nat) (k : kexp) (sigma : R) (x1 : Mat) (jac1 : Ten)
    (x2 : Mat) (jac2 : Ten) : (Mat -> Mat) * (Mat -> Mat) :=
  let row_fun_lhs (xj : Vec * Mat) : Mat :=
    let x1s := one_row (fst xj) in let j1s := one_jac (snd xj) in
    let kernel_row_1 : Mat := fun i j => d01kj 1 m nf nv nv k x1s x1 j1s jac1 i j * sigma ^ 2 in
    let f (yj : Vec * Mat) : Mat :=
      mm (n * nd) (d01kj 1 n nf nv nd k x1s x2 j1s jac2)
                  (d01kj n 1 nf nd nv k x2 (one_row (fst yj)) jac2 (one_jac (snd yj))) in
    let kernel_row_2 := reshape_rows nv m (nv * m) (stack2 f (fun s => (x1 s, jac1 s))) in
    fun i j => kernel_row_1 i j + kernel_row_2 i j in
  let row_fun_rhs (xj : Vec * Mat) : Mat := d01kj 1 n nf nv nd k (one_row (fst xj)) x2 (one_jac (snd xj)) jac2 in
  (rowfun_to_matvec nv (m * nv) row_fun_lhs (samples2 m x1 jac1) true jit10,
   rowfun_to_matvec nv (n * nd) row_fun_rhs (samples2 m x1 jac1) false 0).
(** _sgpr.py:204-239 _Hx_fun; x1 are the m inducing points, x2 the n samples *)
Definition sg_Hx_fun (la : linalg) (m n nf : nat) (k : kexp) (sigma : R) (x1 x2 : Mat) : Mat -> Mat :=
  let Kmm : Mat := fun i j => kk nf k x1 x1 i j + jit10 * eye i j in
  let Kmm_inv := la_inv la m Kmm in
  let row_fun (x2s : Vec) : Mat :=
    let kernel_row := mm m (kk nf k (one_row x2s) x1) Kmm_inv in
    let f (x3s : Vec) : Mat := mm m kernel_row (kk nf k x1 (one_row x3s)) in
    reshape_rows 1 n n (stack2 f x2) in
  rowfun_to_matvec 1 n row_fun (samples n x2) true (sigma ^ 2 + jit10).
(** _sgpr.py:242-288 _Hx_derivs_fun; both jacobians have nd columns *)
Definition sg_Hx_derivs_fun (la : linalg) (m n nf nd : nat) (k : kexp) (sigma : R) (x1 : Mat) (jac1 : Ten)
    (x2 : Mat) (jac2 : Ten) : Mat -> Mat :=
  let Kmm : Mat := fun i j => d01kj m m nf nd nd k x1 x1 jac1 jac1 i j + jit10 * eye i j in
  let Kmm_inv := la_inv la (m * nd) Kmm in
  let row_fun (xj : Vec * Mat) : Mat :=
    let kernel_row := mm (m * nd) (d01kj 1 m nf nd nd k (one_row (fst xj)) x1 (one_jac (snd xj)) jac1) Kmm_inv in
    let f (yj : Vec * Mat) : Mat :=
      mm (m * nd) kernel_row (d01kj m 1 nf nd nd k x1 (one_row (fst yj)) jac1 (one_jac (snd yj))) in
    reshape_rows nd n (n * nd) (stack2 f (fun s => (x2 s, jac2 s))) in
  rowfun_to_matvec nd (n * nd) row_fun (samples2 n x2 jac2) true (sigma ^ 2 + jit10).

(** cg without a preconditioner *)
Definition no_precond (z : Mat) : Mat := z.

(** _sgpr.py:319-340 _fit_dense *)
Definition sg_fit_dense (la : linalg) (m n o nf : nat) (k : kexp) (sigma : R) (x_locs x y : Mat)
    (mean_function : nat -> nat -> Mat -> R) : Mat * R :=
  let mu := mean_function n o y in
  let y : Mat := fun i j => y i j - mu in
  let CK := sg_A_lhs n nf k sigma x_locs x in
  let c := la_solve la m (fst CK) (mm n (snd CK) y) in
  (c, mu).
(** _sgpr.py:343-363 _fit_iter *)
Definition sg_fit_iter (la : linalg) (m n o nf : nat) (k : kexp) (sigma : R) (x_locs x y : Mat)
    (mean_function : nat -> nat -> Mat -> R) : Mat * R :=
  let mu := mean_function n o y in
  let y : Mat := fun i j => y i j - mu in
  let mv := sg_Ax_lhs_fun m n nf k sigma x_locs x in
  let c := la_cg la m o (fst mv) (snd mv y) no_precond in
  (c, mu).
(** _sgpr.py:366-396 _fit_derivs_dense; y has shape (n, nd) *)
Definition sg_fit_derivs_dense (la : linalg) (m n nf nv nd : nat) (k : kexp) (sigma : R) (x_locs : Mat) (jac_locs : Ten)
    (x y : Mat) (jac : Ten) (mean_function : nat -> nat -> Mat -> R) : Mat * R :=
  let y := flat nd y in
  let mu := mean_function (n * nd)%nat 1%nat y in
  let y : Mat := fun i j => y i j - mu in
  let CK := sg_A_derivs_lhs m n nf nv nd k sigma x_locs jac_locs x jac in
  let c := la_solve la (m * nv) (fst CK) (mm (n * nd) (snd CK) y) in
  (c, mu).
(** _sgpr.py:399-429 _fit_derivs_iter *)
Definition sg_fit_derivs_iter (la : linalg) (m n nf nv nd : nat) (k : kexp) (sigma : R) (x_locs : Mat) (jac_locs : Ten)
    (x y : Mat) (jac : Ten) (mean_function : nat -> nat -> Mat -> R) : Mat * R :=
  let y := flat nd y in
  let mu := mean_function (n * nd)%nat 1%nat y in
  let y : Mat := fun i j => y i j - mu in
  let mv := sg_Ax_derivs_lhs_fun m n nf nv nd k sigma x_locs jac_locs x jac in
  let c := la_cg la (m * nv) 1 (fst mv) (snd mv y) no_precond in
  (c, mu).

(** _sgpr.py:435-467 _predict_dense; t samples x *)
Definition sg_predict_dense (m nf : nat) (k : kexp) (x_locs x c : Mat) (mu : R) : Mat :=
  let K_nm := kk nf k x x_locs in
  fun t j => mu + mm m K_nm c t j.
(** _sgpr.py:457-466; the samples x are those at which to predict *)
Definition sg_cov_of (la : linalg) (m : nat) (sigma : R) (K_mm C_mm K_mn K_nn : Mat) : Mat :=
  let K_mm : Mat := fun i j => K_mm i j + jit10 * eye i j in
  let L_m := la_chol la m K_mm in
  let G_mn := la_tri la m L_m K_mn in
  let L_m := la_chol la m C_mm in
  let H_mn := la_tri la m L_m K_mn in
  fun i j => K_nn i j - mm m (tr G_mn) G_mn i j + sigma ^ 2 * mm m (tr H_mn) H_mn i j.
Definition sg_predict_cov (la : linalg) (m n nf : nat) (k : kexp) (sigma : R) (x_locs x : Mat) : Mat :=
  let CK := sg_A_lhs n nf k sigma x_locs x in
  sg_cov_of la m sigma (kk nf k x_locs x_locs) (fst CK) (snd CK) (kk nf k x x).
(** _sgpr.py:529-546 _predict_iter *)
Definition sg_predict_iter (m n nf : nat) (k : kexp) (sigma : R) (x_locs x c : Mat) (mu : R) : Mat :=
  let matvec := snd (sg_Ax_lhs_fun n m nf k sigma x x_locs) in
  fun t j => mu + matvec c t j.
(** _sgpr.py:470-526 _predict_derivs_dense without and with jaccoef *)
Definition sg_predict_derivs_dense (m n nf nv nd : nat) (k : kexp) (x_locs : Mat) (jac_locs : Ten)
    (x : Mat) (jac : Ten) (c : Mat) (mu : R) : Mat :=
  let K_nm := d01kj n m nf nd nv k x x_locs jac jac_locs in
  unflat nd (fun t j => mu + mm (m * nv) K_nm c t j).
Definition sg_predict_derivs_jaccoef (m n nf nd : nat) (k : kexp) (x_locs x : Mat) (jac : Ten) (mu : R) (jaccoef : Mat) : Mat :=
  unflat nd (fun r _ => mu + sum m (fun s => d01kjc m n nf nd k x_locs x jaccoef jac s r)).
(** _sgpr.py:549-577 _predict_derivs_iter *)
Definition sg_predict_derivs_iter (m n nf nv nd : nat) (k : kexp) (sigma : R) (x_locs : Mat) (jac_locs : Ten)
    (x : Mat) (jac : Ten) (c : Mat) (mu : R) : Mat :=
  let matvec := snd (sg_Ax_derivs_lhs_fun n m nf nd nv k sigma x jac x_locs jac_locs) in
  unflat nd (fun t j => mu + matvec c t j).
(** _sgpr.py:580-624 _predict_y_derivs_dense without and with jaccoef *)
Definition sg_predict_y_derivs_dense (m n nf nv : nat) (k : kexp) (x_locs : Mat) (jac_locs : Ten) (x c : Mat) (mu : R) : Mat :=
  let K_mn := d0kj m n nf nv k x_locs x jac_locs in
  fun t j => mu + mm (m * nv) (tr K_mn) c t j.
Definition sg_predict_y_derivs_jaccoef (m n nf : nat) (k : kexp) (x_locs x : Mat) (mu : R) (jaccoef : Mat) : Mat :=
  fun t _ => mu + sum m (fun s => d0kjc m n nf k x_locs x jaccoef s t).
(** _sgpr.py:627-654 _predict_y_derivs_iter; _Kx_derivs1_fun (291-313) is that of _gpr.py *)
Definition sg_predict_y_derivs_iter (m n nf nv : nat) (k : kexp) (x_locs : Mat) (jac_locs : Ten) (x c : Mat) (mu : R) : Mat :=
  let matvec := Kx_derivs1_fun n m nf nv k x x_locs jac_locs in
  fun t j => mu + matvec c t j.

(** _sgpr.py:660-697 _lml_dense, given K_mm, K_mn and the centred y of shape (n, o) *)
Definition sg_lml_of (la : linalg) (m n o : nat) (sigma : R) (K_mm K_mn y : Mat) : R :=
  let L_m := la_chol la m (fun i j => K_mm i j + jit10 * eye i j) in
  let G_mn := la_tri la m L_m K_mn in
  let C_nn : Mat := fun i j => mm m (tr G_mn) G_mn i j + sigma ^ 2 * eye i j + jit10 * eye i j in
  lml_of la n o C_nn y.
Definition sg_lml_dense (la : linalg) (m n o nf : nat) (k : kexp) (sigma : R) (x_locs x y : Mat)
    (mean_function : nat -> nat -> Mat -> R) : R :=
  let mu := mean_function n o y in
  sg_lml_of la m n o sigma (kk nf k x_locs x_locs) (kk nf k x_locs x) (fun i j => y i j - mu).
(** _sgpr.py:700-737 _lml_iter and 787-829 _lml_derivs_iter: as in _gpr.py, with matvec the product of
    sg_Hx_fun, sg_Hx_derivs_fun; logdet is the value of lanczos_logdet *)
Definition sg_lml_iter (la : linalg) (m n o nf : nat) (k : kexp) (sigma : R) (x_locs x y : Mat)
    (mean_function : nat -> nat -> Mat -> R) (logdet : R) : R :=
  let mu := mean_function n o y in
  let y : Mat := fun i j => y i j - mu in
  let matvec := sg_Hx_fun la m n nf k sigma x_locs x in
  lml_iter_of n o (la_cg la n o matvec y no_precond) y logdet.

(** models/sgpr.py:340-388 fit_derivs: the contracted jacobian is jaccoef_of of Model/GPR.v *)

(** _sgpr_rpchol.py:36-69 _fit_dense (and 71-98, 100-136, 138-173): the inducing points are the pivots *)
Definition rp_locs (choose : nat -> Vec -> nat) (n nf : nat) (k : kexp) (x : Mat) (n_locs : nat) : nat -> nat :=
  snd (rpcholesky choose n nf x n_locs k).
Definition rp_fit_dense (la : linalg) (choose : nat -> Vec -> nat) (n o nf n_locs : nat) (k : kexp) (sigma : R) (x y : Mat)
    (mean_function : nat -> nat -> Mat -> R) : Mat * R * Mat :=
  let x_locs : Mat := fun l => x (rp_locs choose n nf k x n_locs l) in
  (sg_fit_dense la n_locs n o nf k sigma x_locs x y mean_function, x_locs).
Definition rp_fit_iter (la : linalg) (choose : nat -> Vec -> nat) (n o nf n_locs : nat) (k : kexp) (sigma : R) (x y : Mat)
    (mean_function : nat -> nat -> Mat -> R) : Mat * R * Mat :=
  let x_locs : Mat := fun l => x (rp_locs choose n nf k x n_locs l) in
  (sg_fit_iter la n_locs n o nf k sigma x_locs x y mean_function, x_locs).
Definition rp_fit_derivs_dense (la : linalg) (choose : nat -> Vec -> nat) (n nf nd n_locs : nat) (k : kexp) (sigma : R)
    (x y : Mat) (jac : Ten) (mean_function : nat -> nat -> Mat -> R) : Mat * R * Mat * Ten :=
  let piv := rp_locs choose n nf k x n_locs in
  let x_locs : Mat := fun l => x (piv l) in
  let jac_locs : Ten := fun l => jac (piv l) in
  (sg_fit_derivs_dense la n_locs n nf nd nd k sigma x_locs jac_locs x y jac mean_function, x_locs, jac_locs).
(** _sgpr_rpchol.py:178-209 _lml_dense *)
Definition rp_lml_dense (la : linalg) (choose : nat -> Vec -> nat) (n o nf n_locs : nat) (k : kexp) (sigma : R) (x y : Mat)
    (mean_function : nat -> nat -> Mat -> R) : R :=
  let x_locs : Mat := fun l => x (rp_locs choose n nf k x n_locs l) in
  sg_lml_dense la n_locs n o nf k sigma x_locs x y mean_function.
