(** Library routines of jax.numpy.linalg / jax.scipy called by the models: arguments of the model,
    with the behaviour assumed of them. Not part of /repo. Right-hand sides are (n, o) arrays. *)
From Coq Require Import Reals Arith.
From Verif Require Import Base.Sums Base.Mat Base.PSD.
Open Scope R_scope.

Record linalg : Type := {
  (** jnp.linalg.solve(A, B), A of shape (n, n) *)
  la_solve : nat -> Mat -> Mat -> Mat;
  (** jsp.linalg.cholesky(A, lower=True) *)
  la_chol : nat -> Mat -> Mat;
  (** jsp.linalg.solve_triangular(L, B, lower=True) *)
  la_tri : nat -> Mat -> Mat -> Mat;
  (** jnp.linalg.inv(A) *)
  la_inv : nat -> Mat -> Mat;
  (** jax.scipy.sparse.linalg.cg(matvec, B, M=precond), matrices with n rows and o columns *)
  la_cg : nat -> nat -> (Mat -> Mat) -> Mat -> (Mat -> Mat) -> Mat
}.

(** A is non-singular: only the zero vector is mapped to zero *)
Definition nonsing (n : nat) (A : Mat) : Prop :=
  forall v : Vec, (forall i, (i < n)%nat -> mv n A v i = 0) -> forall i, (i < n)%nat -> v i = 0.
Definition lower (n : nat) (L : Mat) : Prop :=
  forall i j, (i < n)%nat -> (j < n)%nat -> (i < j)%nat -> L i j = 0.

(** Assumed behaviour in exact arithmetic. cg is assumed to have converged whenever the operator
    and the preconditioner are symmetric positive definite. *)
Record linalg_ok (la : linalg) : Prop := {
  ok_solve : forall n o A B, nonsing n A -> meq n o (mm n A (la_solve la n A B)) B;
  ok_chol : forall n A, sym n A -> pd n A -> is_chol n A (la_chol la n A);
  ok_tri : forall n o L B, lower n L -> (forall i, (i < n)%nat -> L i i <> 0) ->
    meq n o (mm n L (la_tri la n L B)) B;
  ok_inv : forall n A, nonsing n A -> meq n n (mm n A (la_inv la n A)) eye;
  ok_cg : forall n o matvec B precond A P, sym n A -> pd n A -> sym n P -> pd n P ->
    (forall Z, meq n o (matvec Z) (mm n A Z)) -> (forall Z, meq n o (precond Z) (mm n P Z)) ->
    meq n o (mm n A (la_cg la n o matvec B precond)) B
}.
