(** Vocabulary of the regression theorems. *)
From Coq Require Import Reals Arith.
From Verif Require Import Base.Sums Base.Mat.
Open Scope R_scope.
(** K + (sigma^2 + 1e-10) I *)
Definition noisy (sigma : R) (K : Mat) : Mat := fun i j => K i j + (sigma ^ 2 + / 10 ^ 10) * delta i j.
