(** Declared ranges of the bijectors. *)
From Coq Require Import Reals.
From Verif Require Import Model.Bijectors.
Open Scope R_scope.

(** the bounds of SoftMinMax are ordered *)
Definition bij_ok (b : bijector) : Prop :=
  match b with SoftMinMax m M => m < M | _ => True end.
(** y is strictly inside the declared range, at distance more than e from its finite ends *)
Definition inside (e : R) (b : bijector) (y : R) : Prop :=
  match b with
  | Softplus => e < y
  | SoftMin m => m + e < y
  | SoftMax M => y < M - e
  | SoftMinMax m M => m + e < y < M - e
  | Identity => True
  end.
(** y is strictly inside the declared range *)
Definition in_range (b : bijector) (y : R) : Prop := inside 0 b y.
(** values at which backward is a number: the range, for SoftMinMax minus 1e-300 at its lower end *)
Definition backward_dom (b : bijector) (y : R) : Prop :=
  in_range b y /\ match b with SoftMinMax m M => m + / 10 ^ 300 <= y | _ => True end.
(** bound on |backward (forward x) - x| *)
Definition round_err (b : bijector) (x : R) : R :=
  match b with
  | Softplus => / 10 ^ 300 * (1 + exp (- x))
  | SoftMin m => / 10 ^ 300 * (1 + exp (- (x - m)))
  | SoftMax M => / 10 ^ 300 * (1 + exp (- (M - x)))
  | SoftMinMax m M => 2 * (/ 10 ^ 300 * exp (softplus (x - m) - (M - m)) * (1 + exp (- (x - m))))
  | Identity => 0
  end.
