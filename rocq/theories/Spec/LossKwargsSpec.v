(** Vocabulary for a dictionary shared by several fits. *)
From Coq Require Import List String Bool.
From Verif Require Import Model.PyDict Model.Params Model.State Model.Lifecycle Model.TDClass Model.LossKwargs.
Import ListNotations.
Open Scope string_scope.

(** the argument iterative of a call, if the call takes the dictionary *)
Definition asks_iterative (c : shared_call) : option bool :=
  match c with
  | SFit _ _ (Both _ _ _ _) _ => None
  | SFit _ _ _ a | SNlopt _ _ _ _ _ a => Some (o_iterative (a_options a))
  | STd _ _ _ a => Some (ta_iterative a)
  end.
(** the argument n_pivots of a call, if it takes the dictionary and has that argument: fit_nlopt has not *)
Definition asks_pivots (c : shared_call) : option obj :=
  match c with
  | SFit _ _ (Both _ _ _ _) _ | SNlopt _ _ _ _ _ _ => None
  | SFit _ _ _ a => Some (o_n_pivots (a_options a))
  | STd _ _ _ a => Some (ta_n_pivots a)
  end.
(** [v] is the argument of the last call that has it *)
Definition last_asked {A : Type} (asks : shared_call -> option A) (cs : list shared_call) (v : A) : Prop :=
  exists cs1 c cs2, cs = (cs1 ++ c :: cs2)%list /\ asks c = Some v /\ Forall (fun c => asks c = None) cs2.
Definition never_asked {A : Type} (asks : shared_call -> option A) (cs : list shared_call) : Prop := Forall (fun c => asks c = None) cs.
