(** The first minimum of a list of losses; restarts; checkpoint files. *)
From Coq Require Import List String Reals.
From Verif Require Import Model.PyDict Model.Bijectors Spec.BijectorSpec Model.Params Model.State Model.Optim Spec.StateSpec.
Import ListNotations.
Open Scope nat_scope.

(** position j holds a number, no number in the list is smaller and none before j is as small *)
Definition first_min (l : list num) (j : nat) : Prop :=
  exists m, nth_error l j = Some (Some m) /\
    forall k y, nth_error l k = Some (Some y) -> (m <= y)%R /\ (k < j -> (m < y)%R).
(** two arrays of the same shape and size *)
Definition like (a b : array) : Prop := a_shape a = a_shape b /\ List.length (a_data a) = List.length (a_data b).
Definition zero_arr (a : array) : Prop := Forall (fun x => x = Some 0%R) (a_data a).
(** the same state with every bijector replaced by the identity *)
Definition no_bijector (o : option param) : option param :=
  option_map (fun p => Param (p_value p) (Meta (m_trainable (p_meta p)) Identity (m_prior (p_meta p)))) o.
Definition with_identity (s : state) : state :=
  State (s_kernel s) (s_mean s) (map_tree no_bijector (s_params s)) (s_register s).
(** the same names and, under each, the same flag, bijector and prior *)
Definition same_static (s s' : state) : Prop :=
  s_kernel s' = s_kernel s /\ s_mean s' = s_mean s /\ s_register s' = s_register s /\
  same_names (s_params s') (s_params s) /\
  forall path, option_map (option_map p_meta) (lookup path (s_params s')) = option_map (option_map p_meta) (lookup path (s_params s)).
(** P holds of every parameter, trainable or not *)
Definition on_params (P : param -> Prop) (t : ptree) : Prop :=
  every (fun o => match o with Some p => P p | None => True end) t.
(** where every gradient seen so far is zero, the update is zero (plain and accelerated gradient descent,
    Adam, ...; false for decoupled weight decay) *)
Definition lazy_updates (updates : list (list array) -> list array) : Prop :=
  forall g hist i a, nth_error g i = Some a -> zero_arr a ->
    (forall g', In g' hist -> exists a', nth_error g' i = Some a' /\ zero_arr a') ->
    exists u, nth_error (updates (g :: hist)) i = Some u /\ zero_arr u /\ List.length (a_data u) = List.length (a_data a).
(** one particle swarm run, on the state without bijectors *)
Definition pso_trial {A} (loss : array -> state -> result A) (s : state) (st : strategy A (array * num)) : result (array * num) :=
  fst (play (objective (s_params (with_identity s)) (with_identity s) loss) st).
(** entries that are numbers lie in the range of the bijector *)
Definition entry_in_range (p : param) : Prop := Forall (fun x => forall y, x = Some y -> in_range (m_bijector (p_meta p)) y) (a_data (p_value p)).
(** what every state met while training the state s has to be *)
Definition legal_step (s t : state) : Prop :=
    state_ok t /\ same_static s t /\ (on_params (fun p => bij_ok (m_bijector (p_meta p))) (s_params s) -> on_params entry_in_range (s_params t)).
