(** Optimiser coordinates and states that differ in trainable values only. *)
From Coq Require Import List String Reals.
From Verif Require Import Model.PyDict Model.Bijectors Spec.BijectorSpec Model.Params Model.State Model.Optim Spec.StateSpec Spec.RandomSpec.
Import ListNotations.

(** trainable parameters hold floating point numbers, as many as their shape says *)
Definition floating (d : dtype) : Prop := d = F64 \/ d = F32.
Definition float_tree (t : ptree) : Prop := on_trainable (fun p => floating (pr_dtype (m_prior (p_meta p)))) t.
Definition full_tree (t : ptree) : Prop :=
  on_trainable (fun p => List.length (a_data (p_value p)) = size_of (a_shape (p_value p))) t.
(** the bijector of each coordinate of the optimiser's vector *)
Definition coords (t : ptree) : list bijector :=
  flat_map (fun p => repeat (m_bijector (p_meta p)) (size_of (a_shape (p_value p)))) (trainables t).
(** the entries of all trainable parameters one after the other *)
Definition entries (t : ptree) : list num := flat_map (fun p => a_data (p_value p)) (trainables t).
(** t' has the names, flags, bijectors, priors and frozen values of t *)
Definition only_trainables (t t' : ptree) : Prop :=
  same_names t' t /\
  forall path, match lookup path t with
    | Some (Some p) => exists v, lookup path t' = Some (Some (Param v (p_meta p))) /\
        (m_trainable (p_meta p) = false -> v = p_value p)
    | o => lookup path t' = o end.
Definition only_trainables_state (s s' : state) : Prop :=
  s_kernel s' = s_kernel s /\ s_mean s' = s_mean s /\ s_register s' = s_register s /\
  only_trainables (s_params s) (s_params s').
(** every entry of every trainable parameter that is a number lies in the range of its bijector *)
Definition in_ranges (t : ptree) : Prop :=
  on_trainable (fun p => Forall (fun x => forall y, x = Some y -> in_range (m_bijector (p_meta p)) y) (a_data (p_value p))) t.
(** every entry is a number *)
Definition all_real (x : array) : Prop := Forall (fun o => o <> None) (a_data x).
(** a strategy that never proposes NaN *)
Inductive proposes_reals {A : Type} : strategy A array -> Prop :=
| PR_done : forall x, all_real x -> proposes_reals (Done x)
| PR_ask : forall x k, all_real x -> (forall a, proposes_reals (k a)) -> proposes_reals (Ask x k).
(** every trainable parameter holds numbers in the range of its bijector *)
Definition all_legal (u : state) : Prop := on_trainable (fun p => legal (m_bijector (p_meta p)) (p_value p)) (s_params u).
(** the same structure and the same frozen values *)
Definition same_frozen (t t' : ptree) : Prop := same_names t t' /\
  forall path, match lookup path t, lookup path t' with
    | Some (Some p), Some (Some p') => p_meta p = p_meta p' /\ (m_trainable (p_meta p) = false -> p_value p = p_value p')
    | a, b => a = b end.
