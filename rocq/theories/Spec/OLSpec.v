(** Reference notions for operator learning. *)
From Coq Require Import Reals Arith.
From Verif Require Import Base.Sums Base.Mat.
Open Scope R_scope.
(** U, s, Vt is a thin singular value decomposition of C, which has p rows and m columns, m <= p: assumed
    of jnp.linalg.svd(C, full_matrices=False) *)
Definition is_svd (p m : nat) (C U : Mat) (s : Vec) (Vt : Mat) : Prop :=
  meq m m (mm p (tr U) U) eye /\ meq m m (mm m Vt (tr Vt)) eye /\
  meq p m C (fun i j => sum m (fun l => U i l * (s l * Vt l j))) /\ (forall l, (l < m)%nat -> 0 <= s l).
(** the quantity minimised by operator learning: value residuals, where sigma^2 + 1e-10 times the coefficient is
    added to the predicted value, and derivative residuals. pv, pd are the predicted values and derivatives *)
Definition ol_objective (m nv : nat) (sigma : R) (y yd : Mat) (c : Mat) (pv : nat -> R) (pd : nat -> nat -> R) : R :=
  sum m (fun i => (pv i + (sigma ^ 2 + / 10 ^ 10) * c i O - y i O) ^ 2)
  + sum m (fun s => sum nv (fun v => (pd s v - yd s v) ^ 2)).
