(** Vocabulary for the attributes that fits set on a model object. *)
From Coq Require Import List String Bool Arith.
From Verif Require Import Model.PyDict Model.Params Model.State Model.Optim Model.Calls Model.Lifecycle Model.History
  Spec.RandomSpec Spec.SearchSpec.
Import ListNotations.
Open Scope string_scope.
Open Scope nat_scope.

(** the runs of a training: [states] and [losses] have one entry per run, each loss is that of its state, run 0 started at
    [s] and run r+1 at the state of run r randomised; [kept] is the state of the first run with the smallest loss (of run 0
    if its loss is NaN) and [s0] is where that run started *)
Definition training_runs (sample : key -> prior_obj -> array) (loss : state -> result num) (k : option key) (restarts : nat) (s s0 kept : state)
    (states : list state) (losses : list num) : Prop :=
  List.length states = S restarts /\ Forall2 (fun u l => loss u = Ok l) states losses /\
  exists j, nth_error states j = Some kept /\
    match nth_error losses 0 with Some (Some _) => first_min losses j | _ => j = 0 end /\
    match j with
    | 0 => s0 = s
    | S r => exists b k0, k = Some k0 /\ nth_error states r = Some b /\ randomize sample b (right (S r) k0) [] = Ok s0
    end.
(** the steps that may set states_history_ and losses_history_ *)
Definition with_history (p : object_op) : bool :=
  match p with OFit _ a | OFitNlopt _ _ _ a => a_history a | _ => false end.
Definition is_randomize (p : object_op) : bool := match p with ORandomize _ _ => true | _ => false end.
