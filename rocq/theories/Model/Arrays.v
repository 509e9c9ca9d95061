(** Array idioms of jax.numpy used by the code, as index arithmetic.
    Models semantics of library calls only (no /repo file of its own). *)
From Coq Require Import Reals Arith List.
From Verif Require Import Base.Sums Base.Mat.
Open Scope R_scope.

(** row-major reshape (n, h, m) -> (n*h, m) *)
Definition rs_row (h : nat) (T : Ten) : Mat := fun r t => T (r / h)%nat (r mod h)%nat t.
(** row-major reshape (n, m, h) -> (n, m*h) *)
Definition rs_col (h : nat) (T : Ten) : Mat := fun s c => T s (c / h)%nat (c mod h)%nat.
(** row-major reshape (n, h, m, g) -> (n*h, m*g) *)
Definition rs_4 (h g : nat) (T : nat -> nat -> nat -> nat -> R) : Mat :=
  fun r c => T (r / h)%nat (r mod h)%nat (c / g)%nat (c mod g)%nat.
(** jnp.tile(A, (n, 1)) for A with h rows *)
Definition tile_row (h : nat) (A : Mat) : Mat := fun r t => A (r mod h)%nat t.
(** jnp.tile(A, (1, n)) for A with h columns *)
Definition tile_col (h : nat) (A : Mat) : Mat := fun s c => A s (c mod h)%nat.
(** A.repeat(h, axis=0), A.repeat(h, axis=-1) *)
Definition rep_row (h : nat) (A : Mat) : Mat := fun r t => A (r / h)%nat t.
Definition rep_col (h : nat) (A : Mat) : Mat := fun s c => A s (c / h)%nat.

(** x[active_dims] for one sample and x[:, active_dims] for a batch.
    Indices are assumed in bounds. *)
Definition gather (ad : list nat) (x : Vec) : Vec := fun a => x (nth a ad O).
Definition gatherM (ad : list nat) (X : Mat) : Mat := fun s => gather ad (X s).
(** jacobian[:, active_dims] for (n, nf, nv) arrays *)
Definition gatherT (ad : list nat) (J : Ten) : Ten := fun s a v => J s (nth a ad O) v.

Fixpoint find_ix (f : nat) (l : list nat) : option nat :=
  match l with
  | nil => None
  | cons a l' => if Nat.eqb a f then Some O else option_map S (find_ix f l')
  end.

(** zeros.at[active_dims].set(v).  JAX leaves the order of writes to duplicate
    indices unspecified; the model takes the first. *)
Definition scat (ad : list nat) (v : Vec) : Vec :=
  fun f => match find_ix f ad with Some a => v a | None => 0 end.
(** the amount added at position f by x.at[active_dims].add(v): duplicates accumulate *)
Definition scat_add (ad : list nat) (v : Vec) : Vec :=
  fun f => sum (length ad) (fun a => delta (nth a ad O) f * v a).
(** jnp.meshgrid-indexed 2-d scatter at[ii, jj].set(v), ii[a,b] = ad[b], jj[a,b] = ad[a] *)
Definition scat2_xy (ad : list nat) (v : Mat) : Mat :=
  fun f e => match find_ix f ad, find_ix e ad with
             | Some b, Some a => v a b
             | _, _ => 0
             end.
(** zeros.at[active_dims, active_dims].set(v) (paired indices) *)
Definition scat_diag (ad : list nat) (v : R) : Mat :=
  fun f e => match find_ix f ad with Some _ => if Nat.eqb f e then v else 0 | None => 0 end.

(** jax.lax.fori_loop(0, n, body, init) *)
Fixpoint fori {A : Type} (n : nat) (body : nat -> A -> A) (init : A) : A :=
  match n with
  | O => init
  | S k => body k (fori k body init)
  end.

(** jax.lax.dynamic_update_slice on an (N, M) array with an (h, w) update;
    start indices are clamped so that the update fits *)
Definition dus (N M h w : nat) (A U : Mat) (r0 c0 : nat) : Mat :=
  let r := Nat.min r0 (N - h) in
  let c := Nat.min c0 (M - w) in
  fun i j => if (Nat.leb r i && Nat.ltb i (r + h) && Nat.leb c j && Nat.ltb j (c + w))%bool
             then U (i - r)%nat (j - c)%nat else A i j.
(** jax.lax.dynamic_slice of an (N, M) array, size (h, w) *)
Definition dslice (N M h w : nat) (A : Mat) (r0 c0 : nat) : Mat :=
  let r := Nat.min r0 (N - h) in
  let c := Nat.min c0 (M - w) in
  fun i j => A (r + i)%nat (c + j)%nat.
(** one-dimensional versions *)
Definition dus1 (N h : nat) (A U : Vec) (r0 : nat) : Vec :=
  let r := Nat.min r0 (N - h) in
  fun i => if (Nat.leb r i && Nat.ltb i (r + h))%bool then U (i - r)%nat else A i.
Definition dslice1 (N h : nat) (A : Vec) (r0 : nat) : Vec :=
  let r := Nat.min r0 (N - h) in fun i => A (r + i)%nat.

(** jnp.mean along axis 0 of an (n, m) array; mean of a vector *)
Definition mean0 (n : nat) (A : Mat) : Vec := fun j => sum n (fun i => A i j) / INR n.
Definition vmean (n : nat) (v : Vec) : R := sum n v / INR n.
