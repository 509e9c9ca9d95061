(** Means and covariances of random arrays. *)
From Coq Require Import Reals Arith List.
From Verif Require Import Base.Sums Base.Mat Model.PyDict Model.Sampling.
Import ListNotations.
Open Scope R_scope.

(** an averaging operation on the functions of a random outcome *)
Definition averaging {W : Type} (E : (W -> R) -> R) : Prop :=
  (forall f g, (forall w, f w = g w) -> E f = E g) /\ (forall f g, E (fun w => f w + g w) = E f + E g) /\
  (forall c f, E (fun w => c * f w) = c * E f) /\ E (fun _ => 1) = 1.
(** r rows of n uncorrelated entries of mean zero and variance one *)
Definition white {W : Type} (E : (W -> R) -> R) (r n : nat) (z : W -> Mat) : Prop :=
  (forall s i, (s < r)%nat -> (i < n)%nat -> E (fun w => z w s i) = 0) /\
  (forall s t i j, (s < r)%nat -> (t < r)%nat -> (i < n)%nat -> (j < n)%nat ->
     E (fun w => z w s i * z w t j) = delta s t * delta i j).
(** the results are r uncorrelated rows of n numbers with the mean mu and the covariance C *)
Definition draws {W : Type} (E : (W -> R) -> R) (r n : nat) (mu : Vec) (C : Mat) (result : W -> result sampled) : Prop :=
  exists X : W -> Mat, (forall w, result w = Ok (Sampled [r; n] (X w))) /\
  (forall s i, (s < r)%nat -> (i < n)%nat -> E (fun w => X w s i) = mu i) /\
  (forall s t i j, (s < r)%nat -> (t < r)%nat -> (i < n)%nat -> (j < n)%nat ->
     E (fun w => (X w s i - mu i) * (X w t j - mu j)) = delta s t * C i j).
