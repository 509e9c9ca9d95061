(** Models gpx/operations.py. *)
From Coq Require Import Reals Arith List.
From Verif Require Import Base.Sums Base.Mat Model.Arrays.
Import ListNotations.
Open Scope R_scope.

(** jax.lax.scan over a list of inputs *)
Fixpoint scan {C X Y : Type} (f : C -> X -> C * Y) (carry : C) (xs : list X) : C * list Y :=
  match xs with
  | [] => (carry, [])
  | x :: r => let cy := f carry x in let cr := scan f (fst cy) r in (fst cr, snd cy :: snd cr)
  end.

(** jnp.concatenate(res, axis=0) of a list of (h, o) arrays *)
Definition concat0 (h : nat) (l : list Mat) : Mat :=
  fun r j => nth (r / h) l (fun _ _ => 0) (r mod h)%nat j.

(** operations.py:33-51 update_row_diagonal; row has shape (h, N).
    The slices are clamped as lax.dynamic_slice does. *)
Definition update_row_diagonal (h N : nat) (row : Mat) (index : nat) (value : R) : Mat :=
  let add_to_diag : Mat := fun i j => value * eye i j in
  let new_diag : Mat := fun i j => dslice h N h h row 0 (h * index) i j + add_to_diag i j in
  dus h N h h row new_diag 0 (h * index).

(** operations.py:54-123 rowfun_to_matvec; init_val is the list of samples that are looped over,
    row_fun x the stripe of shape (h, N) it produces. *)
Definition rowfun_to_matvec {X : Type} (h N : nat) (row_fun : X -> Mat) (init_val : list X)
    (update_diag : bool) (diag_value : R) (z : Mat) : Mat :=
  if update_diag then
    let update_row := fun (carry : nat) (x : X) =>
      let row := row_fun x in
      let row := update_row_diagonal h N row carry diag_value in
      (S carry, mm N row z) in
    concat0 h (snd (scan update_row O init_val))
  else
    let update_row := fun (carry : nat) (x : X) => (carry, mm N (row_fun x) z) in
    concat0 h (snd (scan update_row O init_val)).
