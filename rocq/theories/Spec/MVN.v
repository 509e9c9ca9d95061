(** The density of the centred multivariate normal distribution with covariance A at r;
    b is the solution of A b = r. *)
From Coq Require Import Reals.
From Verif Require Import Base.Sums Base.Mat Spec.Det.
Open Scope R_scope.
Definition mvn_pdf (n : nat) (A : Mat) (r b : Vec) : R :=
  exp (- / 2 * dot n r b) / sqrt ((2 * PI) ^ n * det n A).
