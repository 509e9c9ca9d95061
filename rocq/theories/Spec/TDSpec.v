(** Vocabulary of the theorems about regression on targets and derivatives. *)
From Coq Require Import Reals Arith.
From Coquelicot Require Import Coquelicot.
From Verif Require Import Base.Sums Base.Mat Model.Kernels Model.GPRTD Spec.KernelSpec Spec.SoftSpec.
Open Scope R_scope.

(** an observation: the value of the function at a point, or its derivative at a point in a direction *)
Definition obs : Type := (Vec * option Vec)%type.
(** row r of a data set of n points x: first the n values, then the n * v1 derivatives in the directions given by
    the columns of J1 (point by point), then the n * v2 derivatives for J2 *)
Definition obs_row (n : nat) (x : Mat) (v1 : nat) (J1 : Ten) (v2 : nat) (J2 : Ten) (r : nat) : obs :=
  if Nat.ltb r n then (x r, None)
  else if Nat.ltb r (n + n * v1) then
    (x ((r - n) / v1)%nat, Some (fun f => J1 ((r - n) / v1)%nat f ((r - n) mod v1)%nat))
  else (x ((r - n - n * v1) / v2)%nat,
        Some (fun f => J2 ((r - n - n * v1) / v2)%nat f ((r - n - n * v1) mod v2)%nat)).
(** the noise variance of row r *)
Definition obs_noise (n v1 : nat) (st s1 s2 : R) (r : nat) : R :=
  (if Nat.ltb r n then st else if Nat.ltb r (n + n * v1) then s1 else s2) ^ 2 + / 10 ^ 10.
(** the point x + s u *)
Definition shift (x u : Vec) (s : R) : Vec := fun f => x f + s * u f.
(** c is the covariance of two observations of a process with covariance kernel_at nf k: the kernel, its
    directional derivative in the argument that is differentiated, or its mixed derivative *)
Definition obs_cov (nf : nat) (k : kexp) (o1 o2 : obs) (c : R) : Prop :=
  match o1, o2 with
  | (x, None), (y, None) => c = kernel_at nf k x y
  | (x, Some u), (y, None) => is_derive (fun s => kernel_at nf k (shift x u s) y) 0 c
  | (x, None), (y, Some w) => is_derive (fun t => kernel_at nf k x (shift y w t)) 0 c
  | (x, Some u), (y, Some w) =>
      is_derive (fun t => Derive (fun s => kernel_at nf k (shift x u s) (shift y w t)) 0) 0 c
  end.
(** the observations of a data set, row by row, and their noise *)
Definition j2_of (a : td_in) : Ten := match td_2 a with Some (_, J) => J | None => fun _ _ _ => 0 end.
Definition td_obs (a : td_in) (r : nat) : obs := obs_row (td_n a) (td_x a) (td_v1 a) (td_j1 a) (td_v2 a) (j2_of a) r.
Definition td_noise (sg : td_sigma) (a : td_in) (r : nat) : R :=
  obs_noise (td_n a) (td_v1 a) (sg_t sg) (sg_1 sg) (sg_2 sg) r.
(** the observed numbers, row by row, with mu subtracted from the values *)
Definition td_targets (a : td_in) (y yd : Mat) (yd2 : option Mat) (mu : R) (r : nat) : R :=
  let n := td_n a in let v1 := td_v1 a in let v2 := td_v2 a in
  if Nat.ltb r n then y r O - mu
  else if Nat.ltb r (n + n * v1) then yd ((r - n) / v1)%nat ((r - n) mod v1)%nat
  else match yd2 with Some d => d ((r - n - n * v1) / v2)%nat ((r - n - n * v1) mod v2)%nat | None => 0 end.
(** C is the covariance matrix of the noisy observations *)
Definition td_cov (nf : nat) (k : kexp) (sg : td_sigma) (a : td_in) (C : Mat) : Prop :=
  forall r q, (r < td_rows a)%nat -> (q < td_rows a)%nat ->
  obs_cov nf k (td_obs a r) (td_obs a q) (C r q - td_noise sg a r * delta r q).
(** the slack of all derivative observations (Spec/SoftSpec.v) *)
Definition td_slack (nf : nat) (k : kexp) (a : td_in) : R :=
  sum (td_rows a) (fun r => match td_obs a r with (x, Some u) => dslack nf k x u | _ => 0 end).
