(** Random draws and keys. *)
From Coq Require Import List String Reals.
From Verif Require Import Model.PyDict Model.Bijectors Spec.BijectorSpec Model.Params Model.State Spec.StateSpec.
Import ListNotations.

(** what is assumed of prior.sample: shape and dtype of the prior, finite entries *)
Definition sampler_ok (sample : key -> prior_obj -> array) : Prop :=
  forall k pr, a_shape (sample k pr) = pr_shape pr /\ a_dtype (sample k pr) = pr_dtype pr /\
    Forall (fun x => x <> None) (a_data (sample k pr)).
(** the bijector keeps the dtype of the prior (false for smooth bijectors on integers) *)
Definition float_meta (m : meta) : Prop := bij_dtype (m_bijector m) (pr_dtype (m_prior m)) = pr_dtype (m_prior m).
(** P holds of every trainable parameter *)
Definition on_trainable (P : param -> Prop) (t : ptree) : Prop :=
  every (fun o => match o with Some p => m_trainable (p_meta p) = true -> P p | None => True end) t.
Definition float_params (t : ptree) : Prop := on_trainable (fun p => float_meta (p_meta p)) t.
Definition bijs_ok (t : ptree) : Prop := on_trainable (fun p => bij_ok (m_bijector (p_meta p))) t.
(** every entry is a real number in the range of the bijector *)
Definition legal (b : bijector) (a : array) : Prop :=
  Forall (fun x => exists y, x = Some y /\ in_range b y) (a_data a).
(** what randomize does to one parameter *)
Definition drawn (sample : key -> prior_obj -> array) (p : param) (v : array) : Prop :=
  if m_trainable (p_meta p) then exists k, v = forward_arr (m_bijector (p_meta p)) (sample k (m_prior (p_meta p)))
  else v = p_value p.
(** the trainable parameters in the order in which JAX visits them *)
Definition trainables (t : ptree) : list param := filter (fun p => m_trainable (p_meta p)) (params_of t).
(** n splits, keeping the second half *)
Fixpoint right (n : nat) (k : key) : key := match n with O => k | S n => SplitR (right n k) end.
