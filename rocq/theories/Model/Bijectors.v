(** Models gpx/bijectors.py over the reals. A logarithm of a non-positive number (NaN or -inf in
    the code) is None, and None propagates. Arrays are transformed elementwise. *)
From Coq Require Import Reals.
Open Scope R_scope.

(** bijectors.py:47, the literal 1e-300 *)
Definition eps300 : R := / 10 ^ 300.
(** jnp.logaddexp *)
Definition logaddexp (a b : R) : R := ln (exp a + exp b).
(** jnp.expm1 *)
Definition expm1 (x : R) : R := exp x - 1.
(** jnp.log; None stands for NaN / -inf *)
Definition jlog (x : R) : option R := if Rlt_dec 0 x then Some (ln x) else None.
Definition omap (f : R -> R) (o : option R) : option R :=
  match o with Some x => Some (f x) | None => None end.
Definition obind (o : option R) (f : R -> option R) : option R :=
  match o with Some x => f x | None => None end.

(** bijectors.py:28-47 softplus *)
Definition softplus (x : R) : R := logaddexp x 0 + eps300.
(** bijectors.py:50-71 inverse_softplus *)
Definition inverse_softplus (x : R) : option R := omap (fun l => x + l) (jlog (- expm1 (- x))).
(** bijectors.py:74-87 softmin *)
Definition softmin (x minval : R) : R := softplus (x - minval) + minval.
(** bijectors.py:90-102 inverse_softmin *)
Definition inverse_softmin (x minval : R) : option R :=
  omap (fun l => l + minval) (inverse_softplus (x - minval)).
(** bijectors.py:105-118 softmax *)
Definition softmax (x maxval : R) : R := - softplus (maxval - x) + maxval.
(** bijectors.py:121-133 inverse_softmax *)
Definition inverse_softmax (x maxval : R) : option R :=
  omap (fun l => - l + maxval) (inverse_softplus (maxval - x)).
(** bijectors.py:136-155 softminmax *)
Definition softminmax (x minval maxval : R) : R :=
  - softplus (maxval - minval - softplus (x - minval)) * (maxval - minval)
    / softplus (maxval - minval) + maxval.
(** bijectors.py:158-173 inverse_softminmax *)
Definition inverse_softminmax (x minval maxval : R) : option R :=
  let width := maxval - minval in
  obind (inverse_softplus (softplus width * ((maxval - x) / width)))
    (fun t => omap (fun l => minval + l) (inverse_softplus (width - t))).

(** bijectors.py:179-287, the classes *)
Inductive bijector : Type :=
| Softplus
| SoftMin (minval : R)
| SoftMax (maxval : R)
| SoftMinMax (minval maxval : R)
| Identity.
Definition forward (b : bijector) (x : R) : R :=
  match b with
  | Softplus => softplus x
  | SoftMin m => softmin x m
  | SoftMax M => softmax x M
  | SoftMinMax m M => softminmax x m M
  | Identity => x
  end.
Definition backward (b : bijector) (y : R) : option R :=
  match b with
  | Softplus => inverse_softplus y
  | SoftMin m => inverse_softmin y m
  | SoftMax M => inverse_softmax y M
  | SoftMinMax m M => inverse_softminmax y m M
  | Identity => Some y
  end.
