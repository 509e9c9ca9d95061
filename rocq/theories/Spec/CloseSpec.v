(** Explicit bounds between the derivative kernels the code returns and the derivatives of the
    single-sample kernel.  The batched SE and Matern kernels see a squared distance shifted by
    1e-12, the derivative methods see it only in part; these functions propagate the resulting
    errors through sums and products. *)
From Coq Require Import Reals Arith List.
From Coquelicot Require Import Coquelicot.
From Verif Require Import Base.Sums Base.Mat Model.Arrays Model.Kernels Spec.KernelSpec.
Open Scope R_scope.

(** the partial derivatives of a function of two samples *)
Definition der0 (k : Vec -> Vec -> R) (x y : Vec) (f : nat) : R :=
  Derive (fun t => k (upd x f t) y) (x f).
Definition der1 (k : Vec -> Vec -> R) (x y : Vec) (e : nat) : R :=
  Derive (fun t => k x (upd y e t)) (y e).
Definition der01 (k : Vec -> Vec -> R) (x y : Vec) (f e : nat) : R :=
  Derive (fun t => der0 k x (upd y e t) f) (y e).

(** error of a product of two factors v1, v2 known up to e1, e2 *)
Definition perr (e1 v1 e2 v2 : R) : R := e1 * Rabs v2 + Rabs v1 * e2 + e1 * e2.

(** first derivatives: only Matern52 differentiates the shifted kernel *)
Definition atom_err0 (a : atom) (x y : Vec) (f : nat) : R :=
  match a with
  | AM52 l => 25 / 6 * / 10 ^ 12 * Rabs (x f - y f) / l ^ 2
  | _ => 0
  end.
(** mixed derivatives: squared exponential and Matern52 differentiate the shifted kernel *)
Definition atom_err01 (a : atom) : R :=
  match a with
  | ASE l => 6 * / 10 ^ 12 / l ^ 2
  | AM52 l => 9 * / 10 ^ 12 / l ^ 2
  | _ => 0
  end.
Fixpoint err0 (nf : nat) (k : kexp) (x y : Vec) (f : nat) : R :=
  match k with
  | KAtom _ a => atom_err0 a x y f
  | KSum k1 k2 => err0 nf k1 x y f + err0 nf k2 x y f
  | KProd k1 k2 =>
      perr (kerr nf k1 x y) (kb nf k1 x y) (err0 nf k2 x y f) (der0 (kb nf k2) x y f)
      + perr (err0 nf k1 x y f) (der0 (kb nf k1) x y f) (kerr nf k2 x y) (kb nf k2 x y)
  end.
Fixpoint err1 (nf : nat) (k : kexp) (x y : Vec) (e : nat) : R :=
  match k with
  | KAtom _ a => atom_err0 a x y e
  | KSum k1 k2 => err1 nf k1 x y e + err1 nf k2 x y e
  | KProd k1 k2 =>
      perr (kerr nf k1 x y) (kb nf k1 x y) (err1 nf k2 x y e) (der1 (kb nf k2) x y e)
      + perr (err1 nf k1 x y e) (der1 (kb nf k1) x y e) (kerr nf k2 x y) (kb nf k2 x y)
  end.
Fixpoint err01 (nf : nat) (k : kexp) (x y : Vec) (f e : nat) : R :=
  match k with
  | KAtom _ a => atom_err01 a
  | KSum k1 k2 => err01 nf k1 x y f e + err01 nf k2 x y f e
  | KProd k1 k2 =>
      perr (kerr nf k1 x y) (kb nf k1 x y) (err01 nf k2 x y f e) (der01 (kb nf k2) x y f e)
      + perr (err0 nf k1 x y f) (der0 (kb nf k1) x y f) (err1 nf k2 x y e) (der1 (kb nf k2) x y e)
      + perr (err1 nf k1 x y e) (der1 (kb nf k1) x y e) (err0 nf k2 x y f) (der0 (kb nf k2) x y f)
      + perr (err01 nf k1 x y f e) (der01 (kb nf k1) x y f e) (kerr nf k2 x y) (kb nf k2 x y)
  end.

(** coefficient-contracted derivatives: generic autodiff of Matern52 against its fast version,
    contracted with w; batched values are shared by both *)
Fixpoint cerr0 (nf : nat) (k : kexp) (x y w : Vec) : R :=
  match k with
  | KAtom _ a => sum nf (fun f => Rabs (w f) * atom_err0 a x y f)
  | KSum k1 k2 => cerr0 nf k1 x y w + cerr0 nf k2 x y w
  | KProd k1 k2 => Rabs (kernel_at nf k1 x y) * cerr0 nf k2 x y w
                   + cerr0 nf k1 x y w * Rabs (kernel_at nf k2 x y)
  end.
(** the directional derivative along j of the second argument, as the code computes it *)
Definition dir1 (nf : nat) (k : kexp) (x y j : Vec) : R :=
  sum nf (fun f => j f * d1k nf k (fun _ => x) (fun _ => y) O f).
Fixpoint cerr01 (nf : nat) (k : kexp) (x y w j : Vec) : R :=
  match k with
  | KAtom _ a => 0
  | KSum k1 k2 => cerr01 nf k1 x y w j + cerr01 nf k2 x y w j
  | KProd k1 k2 => Rabs (kernel_at nf k1 x y) * cerr01 nf k2 x y w j
                   + cerr0 nf k1 x y w * Rabs (dir1 nf k2 x y j)
                   + Rabs (dir1 nf k1 x y j) * cerr0 nf k2 x y w
                   + cerr01 nf k1 x y w j * Rabs (kernel_at nf k2 x y)
  end.
