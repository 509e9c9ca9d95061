(** Models gpx/models/gpr_td.py: Gaussian process regression on targets and derivatives together, with an
    optional second set of derivatives. y has shape (n, 1), y_derivs (n, nv1), y_derivs_2 (n, nv2).
    The arrays x, jacobian, jacobian_2 that always travel together are one record. A call that raises is None. *)
From Coq Require Import Reals Arith List Bool.
From Verif Require Import Base.Sums Base.Mat Model.Arrays Model.Kernels Model.LinAlg Model.Operations
  Model.RPCholesky Model.GPR.
Import ListNotations.
Open Scope R_scope.

(** x of shape (td_n, nf), jacobian of shape (td_n, nf, td_v1), jacobian_2 either None or of shape (td_n, nf, nv2) *)
Record td_in : Type := { td_n : nat; td_x : Mat; td_v1 : nat; td_j1 : Ten; td_2 : option (nat * Ten) }.
Definition td_v2 (a : td_in) : nat := match td_2 a with Some (v2, _) => v2 | None => O end.
Definition td_rows (a : td_in) : nat := (td_n a + td_n a * td_v1 a + td_n a * td_v2 a)%nat.
(** params["sigma_targets"], params["sigma_derivs"], params["sigma_derivs2"] *)
Record td_sigma : Type := { sg_t : R; sg_1 : R; sg_2 : R }.

(** jnp.concatenate((A, B), axis=1) for A with w columns *)
Definition hcat (w : nat) (A B : Mat) : Mat := fun i j => if Nat.ltb j w then A i j else B i (j - w)%nat.

(** gpr_td.py:42-159 _A_lhs; jacobian1_2 given and jacobian2_2 None raises, jacobian1_2 None ignores jacobian2_2 *)
Definition td_A_lhs (nf : nat) (k : kexp) (sg : td_sigma) (a b : td_in) (noise : bool) : option Mat :=
  let n1 := td_n a in let n2 := td_n b in
  let x1 := td_x a in let x2 := td_x b in
  let v1 := td_v1 a in let w1 := td_v1 b in
  let K := kk nf k x1 x2 in
  let K : Mat := if noise then fun i j => K i j + (sg_t sg ^ 2 + jit10) * eye i j else K in
  let D01kj_1 := d01kj n1 n2 nf v1 w1 k x1 x2 (td_j1 a) (td_j1 b) in
  let D01kj_1 : Mat := if noise then fun i j => D01kj_1 i j + (sg_1 sg ^ 2 + jit10) * eye i j else D01kj_1 in
  let D0kj_1 := d0kj n1 n2 nf v1 k x1 x2 (td_j1 a) in
  let D1kj_1 := d1kj n1 n2 nf w1 k x1 x2 (td_j1 b) in
  match td_2 a with
  | None => Some (vcat n1 (hcat n2 K D1kj_1) (hcat n2 D0kj_1 D01kj_1))
  | Some (v2, j12) =>
    match td_2 b with
    | None => None
    | Some (w2, j22) =>
      let D01kj_2 := d01kj n1 n2 nf v2 w2 k x1 x2 j12 j22 in
      let D01kj_2 : Mat :=
        if noise then fun i j => D01kj_2 i j + (sg_2 sg ^ 2 + jit10) * eye i j else D01kj_2 in
      let D01kj_12 := d01kj n1 n2 nf v1 w2 k x1 x2 (td_j1 a) j22 in
      let D01kj_21 := d01kj n1 n2 nf v2 w1 k x1 x2 j12 (td_j1 b) in
      let D0kj_2 := d0kj n1 n2 nf v2 k x1 x2 j12 in
      let D1kj_2 := d1kj n1 n2 nf w2 k x1 x2 j22 in
      Some (vcat n1 (hcat n2 K (hcat (n2 * w1) D1kj_1 D1kj_2))
             (vcat (n1 * v1) (hcat n2 D0kj_1 (hcat (n2 * w1) D01kj_1 D01kj_12))
                             (hcat n2 D0kj_2 (hcat (n2 * w1) D01kj_21 D01kj_2))))
    end
  end.

(** ** the matrix-free product *)

(** np.arange(N)[mask] *)
Definition where_true (mask : list bool) : list nat :=
  map fst (filter snd (combine (seq 0 (length mask)) mask)).
(** np.array([pat for x in range(ns)]).reshape(-1) *)
Definition tile (ns : nat) (pat : list bool) : list bool := concat (repeat pat ns).
(** np.arange(0, stop, step) *)
Definition arange (stop step : nat) : list nat := map (fun i => (i * step)%nat) (seq 0 ((stop + step - 1) / step)).
(** the row indices kept by jnp.delete(res, idx, axis=0) for res with N rows *)
Definition delete_idx (N : nat) (idx : list nat) : list nat :=
  filter (fun i => negb (existsb (Nat.eqb i) idx)) (seq 0 N).
(** res[ind] *)
Definition take_rows (res : Mat) (ind : list nat) : Mat := fun r j => res (nth r ind O) j.
(** z[start:] *)
Definition drop_rows (start : nat) (z : Mat) : Mat := fun i j => z (start + i)%nat j.

(** gpr_td.py:201-244 update_row: the product of the stripe of one sample (x1s, j1s, j2s) with z.
    The stripe has the 1 + nv1 (+ nv2) rows that belong to the sample. carry is the sample index. *)
Definition td_row (nf : nat) (k : kexp) (sg : td_sigma) (v1 : nat) (b : td_in) (noise : bool) (z : Mat)
    (carry : nat) (x1s : Vec) (j1s : Mat) (two : option (nat * Mat)) : option Mat :=
  let n2 := td_n b in let x2 := td_x b in let w1 := td_v1 b in
  let x1 := one_row x1s in let j1 := one_jac j1s in
  let z1 := z in
  let z2 := drop_rows n2 z in
  let row11 := kk nf k x1 x2 in
  let row11 := if noise then update_row_diagonal 1 n2 row11 carry (sg_t sg ^ 2 + jit10) else row11 in
  let row12 := d1kj 1 n2 nf w1 k x1 x2 (td_j1 b) in
  let row21 := d0kj 1 n2 nf v1 k x1 x2 j1 in
  let row22 := d01kj 1 n2 nf v1 w1 k x1 x2 j1 (td_j1 b) in
  let row22 := if noise then update_row_diagonal v1 (n2 * w1) row22 carry (sg_1 sg ^ 2 + jit10) else row22 in
  let rowvec1 : Mat := fun i j => mm n2 row11 z1 i j + mm (n2 * w1) row12 z2 i j in
  let rowvec2 : Mat := fun i j => mm n2 row21 z1 i j + mm (n2 * w1) row22 z2 i j in
  match td_2 b with
  | Some (w2, j22) =>
    (* z[-ns2 * jv2_2 :] of the array z with td_rows b rows *)
    let z3 := drop_rows (td_rows b - n2 * w2) z in
    let row13 := d1kj 1 n2 nf w2 k x1 x2 j22 in
    let rowvec1 : Mat := fun i j => rowvec1 i j + mm (n2 * w2) row13 z3 i j in
    let row23 := d01kj 1 n2 nf v1 w2 k x1 x2 j1 j22 in
    let rowvec2 : Mat := fun i j => rowvec2 i j + mm (n2 * w2) row23 z3 i j in
    match two with
    | Some (v2, j2s) =>
      let j2 := one_jac j2s in
      let row31 := d0kj 1 n2 nf v2 k x1 x2 j2 in
      let row32 := d01kj 1 n2 nf v2 w1 k x1 x2 j2 (td_j1 b) in
      let row33 := d01kj 1 n2 nf v2 w2 k x1 x2 j2 j22 in
      let row33 := if noise then update_row_diagonal v2 (n2 * w2) row33 carry (sg_2 sg ^ 2 + jit10) else row33 in
      let rowvec3 : Mat := fun i j =>
        mm n2 row31 z1 i j + mm (n2 * w1) row32 z2 i j + mm (n2 * w2) row33 z3 i j in
      Some (vcat 1 rowvec1 (vcat v1 rowvec2 rowvec3))
    | None => Some (vcat 1 rowvec1 rowvec2)
    end
  | None =>
    match two with
    | Some _ => None
    | None => Some (vcat 1 rowvec1 rowvec2)
    end
  end.

(** gpr_td.py:246-250: scan over the samples, then concatenate; None if a step raises *)
Fixpoint td_scan (step : nat -> nat -> option Mat) (samples : list nat) (carry : nat) : option (list Mat) :=
  match samples with
  | [] => Some []
  | s :: r => match step carry s, td_scan step r (S carry) with
              | Some m, Some l => Some (m :: l)
              | _, _ => None
              end
  end.
(** gpr_td.py:162-309 _Ax_lhs_fun: the function matvec applied to z *)
Definition td_Ax_lhs_fun (nf : nat) (k : kexp) (sg : td_sigma) (a b : td_in) (noise : bool) (z : Mat) : option Mat :=
  let ns1 := td_n a in let v1 := td_v1 a in
  let two := fun s : nat => match td_2 a with Some (v2, j) => Some (v2, j s) | None => None end in
  match td_scan (fun carry s => td_row nf k sg v1 b noise z carry (td_x a s) (td_j1 a s) (two s)) (seq 0 ns1) O with
  | None => None
  | Some rows =>
    match td_2 a with
    | Some (v2, _) =>
      let res := concat0 (1 + v1 + v2) rows in
      let mask1 := tile ns1 ([true] ++ repeat false v1 ++ repeat false v2) in
      let mask2 := tile ns1 ([false] ++ repeat true v1 ++ repeat false v2) in
      let mask3 := tile ns1 ([false] ++ repeat false v1 ++ repeat true v2) in
      Some (vcat ns1 (take_rows res (where_true mask1))
             (vcat (ns1 * v1) (take_rows res (where_true mask2)) (take_rows res (where_true mask3))))
    | None =>
      let res := concat0 (1 + v1) rows in
      let ind := arange (ns1 + ns1 * v1) (v1 + 1) in
      Some (vcat ns1 (take_rows res ind) (take_rows res (delete_idx (ns1 + ns1 * v1) ind)))
    end
  end.

(** ** randomly pivoted Cholesky *)
(** gpr_td.py:312-460 rpcholesky_TD. The pivot row is computed from the single sample the pivot belongs to.
    .squeeze() is only harmless for n > 1 (with n = 1 it produces a zero-dimensional array and raises). *)
Definition td_pivot_row (nf : nat) (k : kexp) (a : td_in) (s : nat) : Vec :=
  let n := td_n a in let x := td_x a in let v1 := td_v1 a in
  let first_row : Vec :=
    let xs := one_row (x s) in
    let k0 := kk nf k xs x in
    let d1kj1 := d1kj 1 n nf v1 k xs x (td_j1 a) in
    match td_2 a with
    | Some (v2, j2) => hcat n k0 (hcat (n * v1) d1kj1 (d1kj 1 n nf v2 k xs x j2)) O
    | None => hcat n k0 d1kj1 O
    end in
  let second_row : Vec :=
    let index1 := ((s - n) / v1)%nat in
    let index2 := ((s - n) mod v1)%nat in
    let xs := one_row (x index1) in
    let j1s := one_jac (td_j1 a index1) in
    let d0kj0 := d0kj 1 n nf v1 k xs x j1s in
    let d01kj1 := d01kj 1 n nf v1 v1 k xs x j1s (td_j1 a) in
    match td_2 a with
    | Some (v2, j2) => hcat n d0kj0 (hcat (n * v1) d01kj1 (d01kj 1 n nf v1 v2 k xs x j1s j2)) index2
    | None => hcat n d0kj0 d01kj1 index2
    end in
  let third_row (v2 : nat) (j2 : Ten) : Vec :=
    let index1 := ((s - n - n * v1) / v2)%nat in
    let index2 := ((s - n - n * v1) mod v2)%nat in
    let xs := one_row (x index1) in
    let j2s := one_jac (j2 index1) in
    let d0kj0 := d0kj 1 n nf v2 k xs x j2s in
    let d01kj1 := d01kj 1 n nf v2 v1 k xs x j2s (td_j1 a) in
    let d01kj2 := d01kj 1 n nf v2 v2 k xs x j2s j2 in
    hcat n d0kj0 (hcat (n * v1) d01kj1 d01kj2) index2 in
  let false_fun :=
    match td_2 a with
    | Some (v2, j2) => if Nat.ltb s (n + n * v1) then second_row else third_row v2 j2
    | None => second_row
    end in
  if Nat.ltb s n then first_row else false_fun.
(** gpr_td.py:345-380 *)
Definition td_diag (nf : nat) (k : kexp) (a : td_in) : Vec := fun r =>
  let n := td_n a in let x := td_x a in let v1 := td_v1 a in
  let dblock (v : nat) (j : Ten) (q : nat) : R :=
    let xs := one_row (x (q / v)%nat) in
    let js := one_jac (j (q / v)%nat) in
    d01kj 1 1 nf v v k xs xs js js (q mod v)%nat (q mod v)%nat in
  if Nat.ltb r n then kk nf k (one_row (x r)) (one_row (x r)) O O
  else match td_2 a with
       | Some (v2, j2) => if Nat.ltb r (n + n * v1) then dblock v1 (td_j1 a) (r - n)%nat
                          else dblock v2 j2 (r - n - n * v1)%nat
       | None => dblock v1 (td_j1 a) (r - n)%nat
       end.
Definition rpcholesky_TD (choose : nat -> Vec -> nat) (nf : nat) (a : td_in) (n_pivots : nat) (k : kexp)
    : Mat * (nat -> nat) :=
  let r := rp_loop jit6 (td_rows a) n_pivots (td_diag nf k a) (td_pivot_row nf k a) choose n_pivots in
  (rp_fmat r, rp_piv r).
(** gpr_td.py:463-503 _precond_rpcholesky_TD *)
Definition precond_rpcholesky_TD (la : linalg) (choose : nat -> Vec -> nat) (nf : nat) (k : kexp) (sg : td_sigma)
    (a : td_in) (n_pivots : nat) : Mat -> Mat :=
  precond_matvec la (td_rows a) n_pivots (sg_t sg) (fst (rpcholesky_TD choose nf a n_pivots k)).

(** ** fit *)
(** gpr_td.py:660-667, 709-716: the stacked right-hand side *)
Definition td_rhs (a : td_in) (y yd : Mat) (yd2 : option Mat) (mu : R) : Mat :=
  let n := td_n a in
  let y_m := vcat n (fun i j => y i j - mu) (flat (td_v1 a) yd) in
  match yd2 with
  | Some d => vcat (n + n * td_v1 a) y_m (flat (td_v2 a) d)
  | None => y_m
  end.
(** the number of rows of C_mm and of y_m agree *)
Definition td_match (a : td_in) (yd2 : option Mat) : bool :=
  match td_2 a, yd2 with Some _, Some _ => true | None, None => true | _, _ => false end.
(** gpr_td.py:638-681 _fit_dense *)
Definition td_fit_dense (la : linalg) (nf : nat) (k : kexp) (sg : td_sigma) (a : td_in) (y yd : Mat) (yd2 : option Mat)
    (mean_function : nat -> nat -> Mat -> R) : option (Mat * R) :=
  let mu := mean_function (td_n a) 1%nat y in
  let y_m := td_rhs a y yd yd2 mu in
  match td_A_lhs nf k sg a a true with
  | Some C_mm => if td_match a yd2 then Some (la_solve la (td_rows a) C_mm y_m, mu) else None
  | None => None
  end.
(** gpr_td.py:684-745 _fit_iter; cg sees matvec as a function, a failing one raises *)
Definition td_fit_iter (la : linalg) (choose : nat -> Vec -> nat) (nf : nat) (k : kexp) (sg : td_sigma) (a : td_in)
    (y yd : Mat) (yd2 : option Mat) (mean_function : nat -> nat -> Mat -> R) (n_pivots : nat) : option (Mat * R) :=
  let mu := mean_function (td_n a) 1%nat y in
  let y_m := td_rhs a y yd yd2 mu in
  let precond := precond_rpcholesky_TD la choose nf k sg a n_pivots in
  match td_Ax_lhs_fun nf k sg a a true y_m with
  | Some _ =>
    let matvec := fun z => match td_Ax_lhs_fun nf k sg a a true z with Some r => r | None => z end in
    if td_match a yd2 then Some (la_cg la (td_rows a) 1 matvec y_m precond, mu) else None
  | None => None
  end.

(** ** prediction *)
(** y_pred, y_derivs_pred and, if jacobian_2 is given, y_derivs_pred_2 with its number of columns *)
Record td_pred : Type := { tp_y : Mat; tp_d : Mat; tp_d2 : option (nat * Mat) }.
(** gpr_td.py:780-795 / 830-845; pred has nrows rows. A slice beyond the end is empty, and reshape(ns, -1) of
    an empty array has zero columns *)
Definition td_split (b : td_in) (nrows : nat) (pred : Mat) (mu : R) : td_pred :=
  let ns := td_n b in let nv_1 := td_v1 b in
  let pred : Mat := fun i j => if Nat.ltb i ns then pred i j + mu else pred i j in
  {| tp_y := pred;
     tp_d := unflat nv_1 (drop_rows ns pred);
     tp_d2 := match td_2 b with
              | Some (nv_2, _) =>
                let cols := ((Nat.min (ns + nv_1 * ns + nv_2 * ns) nrows - (ns + nv_1 * ns)) / ns)%nat in
                Some (cols, unflat cols (drop_rows (ns + nv_1 * ns) pred))
              | None => None
              end |}.
(** gpr_td.py:748-795 _predict_dense; a training inputs, b new inputs *)
Definition td_predict_dense (nf : nat) (k : kexp) (sg : td_sigma) (a b : td_in) (c : Mat) (mu : R) : option td_pred :=
  match td_A_lhs nf k sg a b false with
  | Some K_mn =>
    let ncols := (td_n b + td_n b * td_v1 b + match td_2 a with Some _ => td_n b * td_v2 b | None => O end)%nat in
    Some (td_split b ncols (mm (td_rows a) (tr K_mn) c) mu)
  | None => None
  end.
(** gpr_td.py:798-845 _predict_iter *)
Definition td_predict_iter (nf : nat) (k : kexp) (sg : td_sigma) (a b : td_in) (c : Mat) (mu : R) : option td_pred :=
  match td_Ax_lhs_fun nf k sg b a false c with
  | Some pred => Some (td_split b (td_rows b) pred mu)
  | None => None
  end.

(** ** likelihood *)
(** gpr_td.py:506-558 _lml_dense. m is read at line 532, before y_derivs_2 is appended at line 535 *)
Definition td_lml_dense (la : linalg) (nf : nat) (k : kexp) (sg : td_sigma) (a : td_in) (y yd : Mat) (yd2 : option Mat)
    (mean_function : nat -> nat -> Mat -> R) : option R :=
  let mu := mean_function (td_n a) 1%nat y in
  let m := (td_n a + td_n a * td_v1 a)%nat in
  let y_m := td_rhs a y yd yd2 mu in
  let N := td_rows a in
  match td_A_lhs nf k sg a a true with
  | Some C_mm =>
    if td_match a yd2 then
      let L_m := la_chol la N C_mm in
      let cy := la_tri la N L_m y_m in
      let mll := - / 2 * sum N (fun i => (cy i O) ^ 2) in
      let mll := mll - sum N (fun i => ln (L_m i i)) in
      let mll := mll - INR m * / 2 * ln (2 * PI) in
      Some (mll / INR m)
    else None
  | None => None
  end.
(** gpr_td.py:561-635 _lml_iter; logdet is the value returned by lanczos_logdet for the matrix-vector
    product (Model/Lanczos.v). m is read at line 608, after y_derivs_2 is appended *)
Definition td_lml_iter (la : linalg) (choose : nat -> Vec -> nat) (nf : nat) (k : kexp) (sg : td_sigma) (a : td_in)
    (y yd : Mat) (yd2 : option Mat) (mean_function : nat -> nat -> Mat -> R) (n_pivots : nat)
    (logdet : nat -> R) : option R :=
  match td_fit_iter la choose nf k sg a y yd yd2 mean_function n_pivots with
  | Some (c, mu) =>
    let y_m := td_rhs a y yd yd2 mu in
    let m := td_rows a in
    Some (lml_iter_of m 1 c y_m (logdet m))
  | None => None
  end.
