(** Models gpx/utils.py. *)
From Coq Require Import Reals Arith.
From Verif Require Import Base.Sums Base.Mat.
Open Scope R_scope.

(** gpx/utils.py:67, jitter = 1e-12 *)
Definition jit12 : R := / 10 ^ 12.

(** gpx/utils.py:28-52 euclidean_distance, for points with na features.
    [jnp.where] selects by the real comparison; gradients are not part of this
    definition. *)
Definition euclidean_distance (na : nat) (x1 x2 : Vec) : R :=
  let d1 := sum na (fun a => Rabs (x1 a - x2 a)) in
  let d2 := sum na (fun a => (x1 a - x2 a) ^ 2) in
  let d2' := if Req_EM_T d2 0 then 1 else d2 in
  if Req_EM_T d2 0 then d1 else sqrt d2'.

(** gpx/utils.py:56-72 squared_distances, batches with na features *)
Definition squared_distances (na : nat) (x1 x2 : Mat) : Mat :=
  fun i j => sum na (fun a => (x1 i a) ^ 2)
             - 2 * sum na (fun a => x1 i a * x2 j a)
             + sum na (fun a => (x2 j a) ^ 2) + jit12.
