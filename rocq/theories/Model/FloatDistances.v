(** Models gpx/utils.py:56-72 squared_distances, the kernels that use it and the softplus bijectors in
    binary64 arithmetic with rounding to nearest. Overflow and fused multiply-add are not modelled. *)
From Coq Require Import Reals.
From Flocq Require Import Core.
From Verif Require Import Model.Distances Model.Bijectors.
Open Scope R_scope.

(** the binary64 number nearest to x, ties to even *)
Definition fl (x : R) : R := round radix2 (FLT_exp (-1074) 53) ZnearestE x.
(** the order in which a sum over features is evaluated, which XLA is free to choose *)
Inductive order : Type := Zero | One (a : nat) | Two (l r : order).
Fixpoint fsum (o : order) (f : nat -> R) : R :=
  match o with
  | Zero => 0
  | One a => f a
  | Two l r => fl (fsum l f + fsum r f)
  end.
(** utils.py:69-70 jnp.sum(jnp.square(x), axis=-1), for one point *)
Definition fsquares (o : order) (z : nat -> R) : R := fsum o (fun a => fl (z a ^ 2)).
(** utils.py:71 jnp.dot(x1, x2.T), for two points *)
Definition fdot (o : order) (z1 z2 : nat -> R) : R := fsum o (fun a => fl (z1 a * z2 a)).
(** utils.py:68 jitter = 1e-12 *)
Definition fjit : R := fl jit12.
(** utils.py:71 x1s - 2 * dot + x2s + jitter, from left to right *)
Definition fdistance2 (o1 o2 o12 : order) (z1 z2 : nat -> R) : R :=
  fl (fl (fl (fsquares o1 z1 - fl (2 * fdot o12 z1 z2)) + fsquares o2 z2) + fjit).

(** x / lengthscale *)
Definition fscale (l : R) (x : nat -> R) : nat -> R := fun a => fl (x a / l).
Section Kernels.
  (** the exp of the library and the order of the sums *)
  Variables (fexp : R -> R) (o1 o2 o12 : order).
  (** kernels.py:751-757 _squared_exponential_kernel, one entry *)
  Definition fsquared_exponential (l : R) (x1 x2 : nat -> R) : R :=
    fexp (- fdistance2 o1 o2 o12 (fscale l x1) (fscale l x2)).
  (** kernels.py:920-927 _matern12_kernel, one entry; jnp.sqrt is correctly rounded *)
  Definition fmatern12 (l : R) (x1 x2 : nat -> R) : R :=
    fexp (- fl (sqrt (Rmax (fdistance2 o1 o2 o12 (fscale l x1) (fscale l x2)) (fl (/ 10 ^ 36))))).
End Kernels.

Section Bijectors.
  (** the logaddexp(x, 0.0) of the library *)
  Variable flogaddexp0 : R -> R.
  (** bijectors.py:28-47 softplus *)
  Definition fsoftplus (x : R) : R := fl (flogaddexp0 x + fl eps300).
  (** bijectors.py:74-87 softmin *)
  Definition fsoftmin (x minval : R) : R := fl (fsoftplus (fl (x - minval)) + minval).
  (** bijectors.py:105-118 softmax *)
  Definition fsoftmax (x maxval : R) : R := fl (- fsoftplus (fl (maxval - x)) + maxval).
End Bijectors.
