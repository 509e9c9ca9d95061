(** Kernel functions that are differentiable along straight motions of both arguments, and the equation that
    regression with such a kernel solves. *)
From Coq Require Import Reals.
From Coquelicot Require Import Coquelicot.
From Verif Require Import Base.Sums Base.Mat.
Open Scope R_scope.

(** x moved by s times u *)
Definition toward (x u : Vec) (s : R) : Vec := fun f => x f + s * u f.
(** contractions of the derivatives of a function of two samples of nf features with one and with two velocities *)
Definition dir (nf : nat) (g : Vec -> Vec -> Vec) (x y u : Vec) : R := sum nf (fun f => u f * g x y f).
Definition dir2 (nf : nat) (h : Vec -> Vec -> Mat) (x y u v : Vec) : R :=
  sum nf (fun f => sum nf (fun e => u f * h x y f e * v e)).
Definition continuous2 (F : R -> R -> R) : Prop :=
  forall p : R * R, continuous (fun q : R * R => F (fst q) (snd q)) p.
(** Along any two straight motions the function has derivatives with respect to the first time, the second time and
    both, all continuous; they are the contractions of g0, g1 and h with the velocities. *)
Definition smooth (nf : nat) (k : Vec -> Vec -> R) (g0 g1 : Vec -> Vec -> Vec) (h : Vec -> Vec -> Mat) : Prop := forall x u y v,
  let F s t := k (toward x u s) (toward y v t) in
  let F0 s t := dir nf g0 (toward x u s) (toward y v t) u in
  let F1 s t := dir nf g1 (toward x u s) (toward y v t) v in
  let F01 s t := dir2 nf h (toward x u s) (toward y v t) u v in
  (continuous2 F /\ continuous2 F0 /\ continuous2 F1 /\ continuous2 F01) /\
  (forall s t, is_derive (fun r => F r t) s (F0 s t)) /\ (forall s t, is_derive (fun r => F s r) t (F1 s t)) /\
  (forall s t, is_derive (fun r => F0 s r) t (F01 s t)).
Definition smooth_kernel (nf : nat) (k : Vec -> Vec -> R) : Prop := exists g0 g1 h, smooth nf k g0 g1 h.

(** the v-th column of the jacobian of sample s *)
Definition column (J : Ten) (s v : nat) : Vec := fun f => J s f v.
(** the covariances of m values at x with n values at x' *)
Definition cov_values (k : Vec -> Vec -> R) (x x' : Mat) : Mat := fun i j => k (x i) (x' j).
(** the covariances of derivatives: row (column) s*nv+v belongs to the v-th column of the jacobian of the s-th sample *)
Definition cov_derivs (nf nv nd : nat) (h : Vec -> Vec -> Mat) (x : Mat) (J : Ten) (x' : Mat) (J' : Ten) : Mat := fun r q =>
  dir2 nf h (x (r / nv)%nat) (x' (q / nd)%nat) (column J (r / nv) (r mod nv)) (column J' (q / nd) (q mod nd)).
(** the covariances of the derivatives at x with the values at x' *)
Definition cov_derivs_values (nf nv : nat) (g0 : Vec -> Vec -> Vec) (x : Mat) (J : Ten) (x' : Mat) : Mat := fun r j =>
  dir nf g0 (x (r / nv)%nat) (x' j) (column J (r / nv) (r mod nv)).
(** the targets differ from mu plus the combination of covariances by (sigma^2 + 1e-10) times the coefficient *)
Definition ridge (n o : nat) (G : Mat) (sigma mu : R) (y c : Mat) : Prop := forall i j, (i < n)%nat -> (j < o)%nat ->
  y i j - (mu + sum n (fun s => G s i * c s j)) = (sigma ^ 2 + / 10 ^ 10) * c i j.
