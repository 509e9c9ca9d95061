(** How to read what the public prediction functions return. *)
From Coq Require Import Reals Arith Bool.
From Verif Require Import Base.Sums Base.Mat Model.Arrays Model.Kernels.
Open Scope R_scope.
(** the derivative of sample t along direction u: with the covariance the mean comes back flat, sample by sample *)
Definition derivative_at (full : bool) (nd : nat) (M : Mat) (t u : nat) : R :=
  if full then M (t * nd + u)%nat O else M t u.
(** the kernel is a sum (k1 + k2 in Python), not an atom or a product *)
Definition is_sum (k : kexp) : bool := match k with KSum _ _ => true | _ => false end.
(** full_covariance and iterative exclude each other *)
Definition compatible (full iterative : bool) : Prop := full && iterative = false.
(** dense, without covariance: the default *)
Definition default_mode (full iterative : bool) : Prop := full = false /\ iterative = false.
