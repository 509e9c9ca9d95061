(** Rounding: the numbers of binary64, the size of one rounding error, sums in any order. *)
From Coq Require Import Reals List Permutation.
From Flocq Require Import Core.
From Verif Require Import Base.Sums Model.Distances Model.FloatDistances.
Import ListNotations.
Open Scope R_scope.

(** a binary64 number: an integer of at most 53 bits times a power of two not below 2^-1074 *)
Definition binary64 (x : R) : Prop :=
  exists m e : Z, x = IZR m * bpow radix2 e /\ (Z.abs m < 2 ^ 53)%Z /\ (-1074 <= e)%Z.
(** relative and absolute error of one rounding: 2^-53 and 2^-1075 *)
Definition unit_roundoff : R := / 2 * bpow radix2 (-52).
Definition underflow : R := / 2 * bpow radix2 (-1074).
(** every feature is added exactly once *)
Fixpoint added (o : order) : list nat :=
  match o with Zero => [] | One a => [a] | Two l r => added l ++ added r end.
Definition adds (n : nat) (o : order) : Prop := Permutation (added o) (seq 0 n).
(** the sum over one feature *)
Definition one : order := One 0.
(** from left to right *)
Fixpoint left_to_right (n : nat) : order :=
  match n with O => Zero | S n => Two (left_to_right n) (One n) end.
(** the number of additions a term goes through, at most *)
Fixpoint depth (o : order) : nat :=
  match o with Zero | One _ => 0 | Two l r => S (Nat.max (depth l) (depth r)) end.
(** the squared distance that is meant *)
Definition distance2 (n : nat) (z1 z2 : nat -> R) : R := sum n (fun a => (z1 a - z2 a) ^ 2).
Definition norm2 (n : nat) (z : nat -> R) : R := sum n (fun a => z a ^ 2).
(** how far the computed one can be away *)
Definition distance_error (n D : nat) (z1 z2 : nat -> R) : R :=
  ((1 + unit_roundoff) ^ (D + 4) - 1) * (2 * (norm2 n z1 + norm2 n z2) + jit12)
  + 4 * (1 + unit_roundoff) ^ (D + 3) * INR n * underflow.
(** how far the computed distance, its square root, can be away *)
Definition root_error (n D : nat) (z1 z2 : nat -> R) : R :=
  sqrt (distance_error n D z1 z2)
  + unit_roundoff * (sqrt (distance2 n z1 z2 + jit12) + sqrt (distance_error n D z1 z2)) + underflow.
(** an exp with relative error eps, and absolute error 2^-1075 where it underflows *)
Definition accurate (eps : R) (fexp : R -> R) : Prop :=
  0 <= eps /\ forall t, Rabs (fexp t - exp t) <= eps * exp t + underflow.
(** how far a kernel exp(-d) can be away if d has error e *)
Definition kernel_error (eps e : R) : R := exp e - 1 + eps * exp e + underflow.
