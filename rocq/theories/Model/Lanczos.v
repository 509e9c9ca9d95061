(** Models gpx/lanczos.py. The normal draws, the Rademacher signs and eigh are arguments; draw j is
    the vector drawn at iteration j (lanczos.py:99). The draws do not depend on the probe: lanczos_logdet
    passes the same key to every call. Not modelled: tracing. *)
From Coq Require Import Reals Arith.
From Verif Require Import Base.Sums Base.Mat Model.Arrays.
Open Scope R_scope.

(** jnp.linalg.norm of a vector *)
Definition vnorm (n : nat) (v : Vec) : R := sqrt (dot n v v).
Definition col (V : Mat) (a : nat) : Vec := fun i => V i a.
(** vecs.at[:, a].set(v); tridiag.at[i, j].set(x) *)
Definition set_col (V : Mat) (a : nat) (v : Vec) : Mat := fun i b => if Nat.eqb b a then v i else V i b.
Definition set_entry (T : Mat) (a b : nat) (x : R) : Mat :=
  fun i j => if (Nat.eqb i a && Nat.eqb j b)%bool then x else T i j.

(** lanczos.py:29-37 orthogonalize; vecs has shape (n, m) *)
Definition orthogonalize (n m : nat) (v : Vec) (vecs : Mat) : Vec :=
  fori m (fun l origv i => origv i - dot n origv (col vecs l) * vecs i l) v.
(** lanczos.py:40-43 orthonormalize *)
Definition orthonormalize (n m : nat) (v : Vec) (vecs : Mat) : Vec :=
  let ortho_vec := orthogonalize n m v vecs in fun i => ortho_vec i / vnorm n ortho_vec.

(** lanczos.py:74 *)
Definition beta_threshold : R := / 10 ^ 12.
Record lz_state : Type := { lz_beta : R; lz_w : Vec; lz_T : Mat; lz_V : Mat }.
(** lanczos.py:76-92 *)
Definition lz_init (n : nat) (matvec : Vec -> Vec) (v1 : Vec) : lz_state :=
  let vecs := set_col (fun _ _ => 0) 0 v1 in
  let w := matvec v1 in
  let alpha := dot n w v1 in
  let w : Vec := fun i => w i - alpha * v1 i in
  {| lz_beta := vnorm n w; lz_w := w; lz_T := set_entry (fun _ _ => 0) 0 0 alpha; lz_V := vecs |}.
(** lanczos.py:99-128 body_fun *)
Definition lz_step (n m : nat) (matvec : Vec -> Vec) (draw : nat -> Vec) (j : nat) (s : lz_state) : lz_state :=
  let beta := lz_beta s in
  let v : Vec := fun i => if Rlt_dec beta_threshold beta then lz_w s i / beta else orthonormalize n m (draw j) (lz_V s) i in
  let vecs := set_col (lz_V s) (j + 1) v in
  let w := matvec v in
  let alpha := dot n w v in
  let w : Vec := fun i => w i - alpha * v i - beta * vecs i j in
  let w := orthogonalize n m w vecs in
  let T := set_entry (lz_T s) (j + 1) (j + 1) alpha in
  let T := set_entry T j (j + 1) beta in
  let T := set_entry T (j + 1) j beta in
  {| lz_beta := vnorm n w; lz_w := w; lz_T := T; lz_V := vecs |}.
(** lanczos.py:46-133 lanczos_tridiagonal *)
Definition lanczos_tridiagonal (matvec : Vec -> Vec) (m n : nat) (v1 : Vec) (draw : nat -> Vec) : Mat * Mat :=
  let s := fori (m - 1) (lz_step n m matvec draw) (lz_init n matvec v1) in
  (lz_T s, lz_V s).

(** lanczos.py:136-183 lanczos_logdet; signs has shape (dim_mat, num_evals), eigh returns (evals, evecs) *)
Definition lanczos_logdet (eigh : nat -> Mat -> Vec * Mat) (matvec : Vec -> Vec) (num_evals dim_mat num_lanczos : nat)
    (signs : Mat) (draw : nat -> Vec) : R :=
  let us : Mat := fun i p => signs i p / vnorm dim_mat (col signs p) in
  let update_fun (p : nat) (logdet : R) : R :=
    let tridiag := fst (lanczos_tridiagonal matvec num_lanczos dim_mat (col us p) draw) in
    let e := eigh num_lanczos tridiag in
    let evals : Vec := fun i => Rmax (fst e i) (/ 10 ^ 36) in
    logdet + sum num_lanczos (fun i => (snd e O i) ^ 2 * ln (evals i)) in
  INR dim_mat / INR num_evals * fori num_evals update_fun 0.
