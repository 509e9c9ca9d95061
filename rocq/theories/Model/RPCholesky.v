(** Models gpx/kernels/approximations.py. The random draw is an argument: choose i prob is the index
    returned by jax.random.choice at step i. The two functions share the loop and differ in the way
    the pivot row and the diagonal of the kernel are computed. *)
From Coq Require Import Reals Arith.
From Verif Require Import Base.Sums Base.Mat Model.Arrays Model.Kernels.
Open Scope R_scope.

(** the 1e-6 of approximations.py:115, 228 *)
Definition jit6 : R := / 10 ^ 6.

Record rp_state : Type := { rp_fmat : Mat; rp_diag : Vec; rp_piv : nat -> nat }.

(** approximations.py:95-120 / 197-233 fori_wrapper; n rows, n_pivots columns, row s is the s-th row
    of the kernel matrix *)
Definition rp_step (jit : R) (n n_pivots : nat) (row : nat -> Vec) (choose : nat -> Vec -> nat)
    (i : nat) (val : rp_state) : rp_state :=
  let fmat := rp_fmat val in
  let diag := rp_diag val in
  let prob : Vec := fun j => diag j / sum n diag in
  let s := choose i prob in
  let pivots := fun j => if Nat.eqb j i then s else rp_piv val j in
  let g : Vec := fun j => row s j - sum n_pivots (fun l => fmat j l * fmat s l) in
  let fmat' : Mat := fun j l => if Nat.eqb l i then g j / (sqrt (g s) + jit) else fmat j l in
  {| rp_fmat := fmat'; rp_diag := fun j => diag j - (fmat' j i) ^ 2; rp_piv := pivots |}.

Definition rp_loop (jit : R) (n n_pivots : nat) (diag : Vec) (row : nat -> Vec)
    (choose : nat -> Vec -> nat) (steps : nat) : rp_state :=
  fori steps (rp_step jit n n_pivots row choose)
    {| rp_fmat := fun _ _ => 0; rp_diag := diag; rp_piv := fun _ => O |}.

(** approximations.py:31-129 rpcholesky *)
Definition rpcholesky (choose : nat -> Vec -> nat) (n nf : nat) (x : Mat) (n_pivots : nat) (k : kexp)
    : Mat * (nat -> nat) :=
  let single := fun s : nat => (fun _ => x s) : Mat in
  let diag : Vec := fun s => kk nf k (single s) (single s) O O in
  let row := fun s : nat => kk nf k (single s) x O in
  let r := rp_loop jit6 n n_pivots diag row choose n_pivots in
  (rp_fmat r, rp_piv r).

(** approximations.py:133-242 rpcholesky_derivs; s / jv truncated is the natural division *)
Definition rpcholesky_derivs (choose : nat -> Vec -> nat) (n nf jv : nat) (x : Mat) (jac : Ten)
    (n_pivots : nat) (k : kexp) : Mat * (nat -> nat) :=
  let single := fun s : nat => (fun _ => x s) : Mat in
  let singlej := fun s : nat => (fun _ => jac s) : Ten in
  let diag : Vec := fun r =>
    d01kj 1 1 nf jv jv k (single (r / jv)%nat) (single (r / jv)%nat)
      (singlej (r / jv)%nat) (singlej (r / jv)%nat) (r mod jv)%nat (r mod jv)%nat in
  let row := fun s : nat =>
    d01kj 1 n nf jv jv k (single (s / jv)%nat) x (singlej (s / jv)%nat) jac (s mod jv)%nat in
  let r := rp_loop jit6 (n * jv) n_pivots diag row choose n_pivots in
  (rp_fmat r, rp_piv r).
