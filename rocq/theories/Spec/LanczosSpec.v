(** Vocabulary of the Lanczos theorems. *)
From Coq Require Import Reals Arith List.
From Verif Require Import Base.Sums Base.Mat.
Open Scope R_scope.

(** A^k v *)
Fixpoint power (n : nat) (A : Mat) (k : nat) (v : Vec) : Vec :=
  match k with O => v | S k' => mv n A (power n A k' v) end.
(** A = P diag(a) P^T with P orthogonal *)
Definition eigen (n : nat) (A : Mat) (a : Vec) (P : Mat) : Prop :=
  meq n n (mm n P (tr P)) eye /\ meq n n (mm n (tr P) P) eye /\
  meq n n (mm n A P) (fun i k => P i k * a k).
(** v^T f(A) v *)
Definition spectral (n : nat) (a : Vec) (P : Mat) (f : R -> R) (v : Vec) : R :=
  sum n (fun k => (dot n (fun i => P i k) v) ^ 2 * f (a k)).
(** every element is one of d numbers *)
Definition at_most (d n : nat) (a : Vec) : Prop := exists zs : list R, length zs = d /\ forall k, (k < n)%nat -> In (a k) zs.
(** average over the 2^n vectors of signs *)
Fixpoint sign_mean (n : nat) (F : Vec -> R) : R :=
  match n with
  | O => F (fun _ => 0)
  | S k => (sign_mean k (fun s => F (upd s k 1)) + sign_mean k (fun s => F (upd s k (-1)))) / 2
  end.
(** average over p independent such vectors, the columns of a matrix *)
Fixpoint probe_mean (p n : nat) (F : Mat -> R) : R :=
  match p with
  | O => F (fun _ _ => 0)
  | S q => probe_mean q n (fun M => sign_mean n (fun s => F (fun i b => if Nat.eqb b q then s i else M i b)))
  end.
Definition is_sign (n : nat) (s : Vec) : Prop := forall i, (i < n)%nat -> s i = 1 \/ s i = -1.
(** a restart (off-diagonal entry of T below 1e-12) draws a vector outside the span of the previous columns *)
Definition restarts_ok (n m : nat) (T V : Mat) (draw : nat -> Vec) : Prop :=
  forall j, (S j < m)%nat -> T j (S j) <= / 10 ^ 12 ->
  forall c : Vec, ~ (forall i, (i < n)%nat -> draw j i = sum (S j) (fun a => c a * V i a)).
(** restarts happen only where the residual vanishes *)
Definition no_tiny (m : nat) (T : Mat) : Prop :=
  forall j, (S j < m)%nat -> T j (S j) = 0 \/ / 10 ^ 12 < T j (S j).
From Verif Require Import Model.Lanczos.
(** what the theorems on lanczos_logdet ask of one probe s: the iteration started at s / sqrt n restarts
    only on a vanishing residual and with a usable vector, and eigh diagonalises T *)
Definition probe_ok (n m : nat) (matvec : Vec -> Vec) (draw : nat -> Vec) (eigh : nat -> Mat -> Vec * Mat) (s : Vec) : Prop :=
  let r := lanczos_tridiagonal matvec m n (fun i => s i / sqrt (INR n)) draw in
  restarts_ok n m (fst r) (snd r) draw /\ no_tiny m (fst r) /\
  eigen m (fst r) (fst (eigh m (fst r))) (snd (eigh m (fst r))).
