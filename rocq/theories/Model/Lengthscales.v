(** Models gpx/kernels/kernels.py:726-1301 for a lengthscale parameter that is an array with one entry per
    active feature, written next to ArrayLike in the signatures and provided for by kernels.py:1017-1020,
    1101-1104 (the rules for lengthscale_dot, modelled in MaternJvp.v). Kernels.v has the scalar case.
    Operations on arrays of different shapes broadcast, or raise. *)
From Coq Require Import Reals Arith List.
From Coquelicot Require Import Coquelicot.
From Verif Require Import Base.Sums Base.Mat Model.Arrays Model.Distances Model.Kernelizers Model.Kernels Model.PyDict.
Open Scope R_scope.

(** the classes with such a lengthscale and a batched kernel of their own *)
Inductive vclass : Type := VSE | VM12 | VM32 | VM52.

(** w * A for an array w of length na and an (n, m) array A: the number of columns and the entries; the same
    for an (n, 1, m) array *)
Definition times_row (na m : nat) (w : Vec) (A : Mat) : result (nat * Mat) :=
  if Nat.eqb na m then Ok (m, fun s t => w t * A s t)
  else if Nat.eqb na 1 then Ok (m, fun s t => w O * A s t)
  else if Nat.eqb m 1 then Ok (na, fun s t => w t * A s O)
  else Err TypeError.
(** x / lengthscale *)
Definition vscaled (l : Vec) (x : Mat) : Mat := fun s a => x s a / l a.
(** squared_distances(x1[:, active_dims] / lengthscale, x2[:, active_dims] / lengthscale) *)
Definition vd2 (l : Vec) (ds : list nat) (X1 X2 : Mat) : Mat :=
  squared_distances (length ds) (vscaled l (gatherM ds X1)) (vscaled l (gatherM ds X2)).
(** z1[:, newaxis] - z2 *)
Definition vdiff (l : Vec) (ds : list nat) (X1 X2 : Mat) (s t a : nat) : R :=
  gatherM ds X1 s a / l a - gatherM ds X2 t a / l a.

(** kernels.py:751-769, 922-937, 966-981, 1050-1065: the batched kernels *)
Definition vk (c : vclass) (l : Vec) (ds : list nat) (X1 X2 : Mat) : Mat := fun s t =>
  let d2 := vd2 l ds X1 X2 s t in
  match c with
  | VSE => exp (- d2)
  | VM12 => let d := sqrt (Rmax d2 tiny36) in exp (- d)
  | VM32 => let d := sqrt 3 * sqrt (Rmax d2 tiny36) in (1 + d) * exp (- d)
  | VM52 => let d := sqrt 5 * sqrt (Rmax d2 tiny36) in (1 + d + d ^ 2 / 3) * exp (- d)
  end.

(** kernels.py:772-788 _squared_exponential_kernel_d01k with ns2 samples in x2. diag has the shape of
    ed2 * (2.0 / lengthscale**2); .add needs it to broadcast to (nact, ns1, ns2). *)
Definition v_se_d01k (l : Vec) (ds : list nat) (nf ns2 : nat) (X1 X2 : Mat) : result Mat :=
  let ed2 : Mat := fun s t => exp (- vd2 l ds X1 X2 s t) in
  let diff := fun s t => scat ds (fun a => 2 / l a * vdiff l ds X1 X2 s t a) in
  bind (times_row (length ds) ns2 (fun a => 2 / l a ^ 2) ed2) (fun wd =>
  if Nat.eqb (fst wd) ns2 then
    Ok (rs_4 nf nf (fun s f t e =>
      - ed2 s t * diff s t f * diff s t e
      + sum (length ds) (fun a => delta (nth a ds O) f * delta (nth a ds O) e * snd wd s t)))
  else Err ValueError).
(** kernels.py:804-831 _squared_exponential_kernel_d01kj; with a diag of another width the last reshape
    raises *)
Definition v_se_d01kj (l : Vec) (ds : list nat) (nv1 nv2 ns2 : nat) (X1 X2 : Mat) (J1 J2 : Ten) : result Mat :=
  let ed2 : Mat := fun s t => exp (- vd2 l ds X1 X2 s t) in
  let diff := fun s t a => 2 / l a * vdiff l ds X1 X2 s t a in
  let diff_j1 := fun s t v => sum (length ds) (fun a => diff s t a * gatherT ds J1 s a v) in
  let diff_j2 := fun s t u => sum (length ds) (fun a => diff s t a * gatherT ds J2 t a u) in
  bind (times_row (length ds) ns2 (fun a => 2 / l a ^ 2) ed2) (fun wd =>
  if Nat.eqb (fst wd) ns2 then
    Ok (rs_4 nv1 nv2 (fun s v t u =>
      - ed2 s t * diff_j1 s t v * diff_j2 s t u
      + sum (length ds) (fun a => gatherT ds J1 s a v * snd wd s t * gatherT ds J2 t a u)))
  else Err TypeError).

(** kernels.py:1114-1117 *)
Definition vd (l : Vec) (ds : list nat) (X1 X2 : Mat) : Mat := fun s t => sqrt 5 * sqrt (Rmax (vd2 l ds X1 X2 s t) tiny36).
(** kernels.py:1108-1122 _matern52_kernel_d0k: the factor sqrt(5) / (3 lengthscale) meets arrays of shape
    (ns1, 1, ns2) *)
Definition v_m52_d0k (l : Vec) (ds : list nat) (nf ns2 : nat) (X1 X2 : Mat) : result Mat :=
  bind (times_row (length ds) ns2 (fun a => - (sqrt 5 / (3 * l a))) (fun s t => 1 + vd l ds X1 X2 s t)) (fun wd =>
  if Nat.eqb (fst wd) ns2 then
    Ok (rs_row nf (fun s f t => scat ds (fun a =>
      snd wd s t * exp (- vd l ds X1 X2 s t) * (sqrt 5 * vdiff l ds X1 X2 s t a)) f))
  else Err ValueError).
(** kernels.py:1166-1180 _matern52_kernel_d1k: here the factor meets arrays of shape (ns1, ns2, nact) *)
Definition v_m52_d1k (l : Vec) (ds : list nat) (nf : nat) (X1 X2 : Mat) : Mat :=
  rs_col nf (fun s t f => scat ds (fun a =>
    (sqrt 5 / (3 * l a)) * (1 + vd l ds X1 X2 s t) * exp (- vd l ds X1 X2 s t) * (sqrt 5 * vdiff l ds X1 X2 s t a)) f).
(** kernels.py:1224-1240 _matern52_kernel_d01k *)
Definition v_m52_d01k (l : Vec) (ds : list nat) (nf ns2 : nat) (X1 X2 : Mat) : result Mat :=
  let diff := fun s t => scat ds (fun a => sqrt 5 * vdiff l ds X1 X2 s t a) in
  bind (times_row (length ds) ns2 (fun a => 5 / (3 * l a ^ 2)) (fun s t => exp (- vd l ds X1 X2 s t))) (fun constant =>
  if Nat.eqb (fst constant) ns2 then
    Ok (rs_4 nf nf (fun s f t e =>
      - snd constant s t * diff s t f * diff s t e
      + sum (length ds) (fun a => delta (nth a ds O) f * delta (nth a ds O) e
          * (snd constant s t * (1 + vd l ds X1 X2 s t)))))
  else Err TypeError).
(** kernels.py:1253-1283 _matern52_kernel_d01kj *)
Definition v_m52_d01kj (l : Vec) (ds : list nat) (nv1 nv2 ns2 : nat) (X1 X2 : Mat) (J1 J2 : Ten) : result Mat :=
  let diff := fun s t a => sqrt 5 * vdiff l ds X1 X2 s t a in
  let diff_j1 := fun s t v => sum (length ds) (fun a => diff s t a * gatherT ds J1 s a v) in
  let diff_j2 := fun s t u => sum (length ds) (fun a => diff s t a * gatherT ds J2 t a u) in
  bind (times_row (length ds) ns2 (fun a => 5 / (3 * l a ^ 2)) (fun s t => exp (- vd l ds X1 X2 s t))) (fun constant =>
  if Nat.eqb (fst constant) ns2 then
    Ok (rs_4 nv1 nv2 (fun s v t u =>
      - snd constant s t * diff_j1 s t v * diff_j2 s t u
      + sum (length ds) (fun a => gatherT ds J1 s a v * (snd constant s t * (1 + vd l ds X1 X2 s t)) * gatherT ds J2 t a u)))
  else Err TypeError).

(** kernels.py:984-991 and 1068-1075: the rules for x1_dot; those for x2_dot are their negatives (994-997,
    1078-1081) *)
Definition v_m32_t0 (l : Vec) (na : nat) (x1 x2 : Vec) : Vec :=
  fun a => let diff := fun b => sqrt 3 * (x1 b / l b - x2 b / l b) in
           let d := sqrt (Rmax (sum na (fun b => diff b ^ 2)) tiny36) in
           - sqrt 3 / l a * exp (- d) * diff a.
Definition v_m52_t0 (l : Vec) (na : nat) (x1 x2 : Vec) : Vec :=
  fun a => let diff := fun b => sqrt 5 * (x1 b / l b - x2 b / l b) in
           let d := sqrt (Rmax (sum na (fun b => diff b ^ 2)) tiny36) in
           - (sqrt 5 / (3 * l a)) * (1 + d) * exp (- d) * diff a.
