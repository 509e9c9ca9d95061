(** Directional derivative of a function of (lengthscale, x1, x2), and the sample means used in
    the statements about centring. *)
From Coq Require Import Reals.
From Coquelicot Require Import Coquelicot.
From Verif Require Import Base.Sums Base.Mat.
Open Scope R_scope.

(** d/dt f(l + t dl, x1 + t dx1, x2 + t dx2) at t = 0 equals d *)
Definition directional (f : R -> Vec -> Vec -> R) (l dl : R) (x1 dx1 x2 dx2 : Vec) (d : R) : Prop :=
  is_derive (fun t => f (l + t * dl) (fun a => x1 a + t * dx1 a) (fun a => x2 a + t * dx2 a)) 0 d.
(** squared scaled distance of na features *)
Definition sqdist (na : nat) (l : R) (x1 x2 : Vec) : R := sum na (fun a => (x1 a / l - x2 a / l) ^ 2).
(** inner product of D features, and the mean feature vector of n samples *)
Definition inner (D : nat) (u v : Vec) : R := sum D (fun d => u d * v d).
Definition mean_feature (n : nat) (Phi : Mat) : Vec := fun d => sum n (fun i => Phi i d) / INR n.
(** the circle embedding: feature a becomes (cos, sin) of its phase, at positions 2a and 2a+1 *)
Definition circle_embedding (p : R) (x c : Vec) : Prop :=
  forall a, c (2 * a)%nat = cos (2 * PI * x a / p) /\ c (2 * a + 1)%nat = sin (2 * PI * x a / p).
