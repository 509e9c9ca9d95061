(** Models the custom_jvp rules gpx/kernels/kernels.py:984-1021 and 1068-1105, including
    the case of one lengthscale per feature. *)
From Coq Require Import Reals Arith.
From Verif Require Import Base.Sums Base.Mat Model.Kernels.
Open Scope R_scope.

(** kernels.py:1010-1021: sum of the three tangents, scalar lengthscale *)
Definition m32_jvp (l : R) (na : nat) (x1 x2 : Vec) (dl : R) (dx1 dx2 : Vec) : R :=
  sum na (fun a => m32_t0 l na x1 x2 a * dx1 a)
  + sum na (fun a => m32_t1 l na x1 x2 a * dx2 a)
  + m32_t2 l na x1 x2 * dl.
(** kernels.py:1094-1105 *)
Definition m52_jvp (l : R) (na : nat) (x1 x2 : Vec) (dl : R) (dx1 dx2 : Vec) : R :=
  sum na (fun a => m52_t0 l na x1 x2 a * dx1 a)
  + sum na (fun a => m52_t1 l na x1 x2 a * dx2 a)
  + m52_t2 l na x1 x2 * dl.

(** kernels.py:945-953 with a lengthscale per feature (x1 / lengthscale broadcasts) *)
Definition m32_base_vec (l : Vec) (na : nat) (x1 x2 : Vec) : R :=
  let d2 := 3 * sum na (fun a => (x1 a / l a - x2 a / l a) ^ 2) in
  let d := sqrt (Rmax d2 tiny36) in
  (1 + d) * exp (- d).
(** kernels.py:1000-1007 and 1017-1020 with a lengthscale per feature: the tangent is
    atleast_1d(t2) @ atleast_1d(lengthscale_dot) *)
Definition m32_t2_vec (l : Vec) (na : nat) (x1 x2 : Vec) : Vec :=
  fun a => let diff := fun b => sqrt 3 * (x1 b / l b - x2 b / l b) in
           let d := sqrt (Rmax (sum na (fun b => diff b ^ 2)) tiny36) in
           1 / l a * exp (- d) * d ^ 2.
Definition m32_jvp_l_vec (l : Vec) (na : nat) (x1 x2 dl : Vec) : R :=
  sum na (fun a => m32_t2_vec l na x1 x2 a * dl a).
(** kernels.py:1029-1037 and 1084-1091, 1101-1104, per-feature lengthscale *)
Definition m52_base_vec (l : Vec) (na : nat) (x1 x2 : Vec) : R :=
  let d2 := 5 * sum na (fun a => (x1 a / l a - x2 a / l a) ^ 2) in
  let d := sqrt (Rmax d2 tiny36) in
  (1 + d + d2 / 3) * exp (- d).
Definition m52_t2_vec (l : Vec) (na : nat) (x1 x2 : Vec) : Vec :=
  fun a => let diff := fun b => sqrt 5 * (x1 b / l b - x2 b / l b) in
           let d := sqrt (Rmax (sum na (fun b => diff b ^ 2)) tiny36) in
           1 / (3 * l a) * exp (- d) * d ^ 2 * (1 + d).
Definition m52_jvp_l_vec (l : Vec) (na : nat) (x1 x2 dl : Vec) : R :=
  sum na (fun a => m52_t2_vec l na x1 x2 a * dl a).
