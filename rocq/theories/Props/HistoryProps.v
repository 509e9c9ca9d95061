(** Property C76: the attributes optimize_results_, states_history_ and losses_history_ of a model object, over any
    sequence of fits, randomisations and loads. Objects and steps are those of Model/History.v; training_runs
    (Spec/HistorySpec.v) says which runs a training made and which one it kept. *)
From Coq Require Import List String Bool Arith Reals.
From Verif Require Import Model.PyDict Model.Bijectors Model.Params Model.State Model.Optim Model.Calls Model.Lifecycle Model.History
  Spec.HistorySpec Spec.StateSpec Spec.LifecycleSpec Proofs.StateExamples Proofs.OptimExamples Proofs.DispatchFacts Proofs.HistoryFacts.
Import ListNotations.
Open Scope string_scope.
Open Scope nat_scope.

(** the attributes change neither the outcome of a fit nor the state it leaves *)
Theorem C76_state : forall lossfn sample key_precond C d a o,
  let r := object_fit lossfn sample key_precond C d a o in
  (fst r, g_state (snd r)) = base_fit lossfn sample key_precond C d a (g_state o).
Proof. exact fit_shown. Qed.
Print Assumptions C76_state.
Theorem C76_state_nlopt : forall lossfn sample C x y w a o,
  let r := object_fit_nlopt lossfn sample C x y w a o in
  (fst r, g_state (snd r)) = base_fit_nlopt lossfn sample C x y w a (g_state o).
Proof. exact nlopt_shown. Qed.
Print Assumptions C76_state_nlopt.

(** after fit, fit_derivs or fit_ol has minimised: the state was fitted from the best run, optimize_results_.x is the point
    of that run, and with return_history the histories list all runs *)
Theorem C76_training : forall lossfn sample key_precond C d a o o' strat, a_minimize a = Some strat ->
  object_fit lossfn sample key_precond C d a o = (Ok tt, o') ->
  exists lf f s0 s1 x p states losses g body, get "loss_fn" (s_register (g_state o)) = Some lf /\ lossfn lf = Some f /\
  training_runs sample (loss_keywords f d (match d with Both _ _ _ _ => [] | _ => fit_loss_kwargs key_precond a end)) (a_key a) (a_restarts a) (g_state o) s0 s1 states losses /\
  g_results o' = Some (ScipyResult x) /\ unravel_forward (s_params s0) x = Ok p /\ with_params s0 p = Ok s1 /\
  k_fit C (task_of d) = Some (g, body) /\ body d (a_options a) s1 = Ok (g_state o') /\
  (if a_history a then g_states o' = Some states /\ g_losses o' = Some losses else g_states o' = g_states o /\ g_losses o' = g_losses o).
Proof. exact fit_trained. Qed.
Print Assumptions C76_training.
Example C76_training_case : exists o, object_step ex_lossfn ex_sampler ONone (GPR ex_num) hist_obj (hist_fit 1 true) = (Ok tt, o) /\
  s_params (g_state o) = ex_params (forward Softplus 1) 1 (forward Softplus 1) /\ g_results o = Some (ScipyResult (vec [1; 1]%R)) /\ g_losses o = Some [Some 0%R] /\
  exists u, g_states o = Some [u] /\ s_params u = ex_params (forward Softplus 1) 1 (forward Softplus 1).
Proof. exact hist_first. Qed.
Theorem C76_training_nlopt : forall lossfn sample C x y w a o o' strat, a_minimize a = Some strat ->
  object_fit_nlopt lossfn sample C x y w a o = (Ok tt, o') ->
  exists lf f s0 s1 states losses g body, get "loss_fn" (s_register (g_state o)) = Some lf /\ lossfn lf = Some f /\
  training_runs sample (loss_keywords f (Targets x y) (nlopt_loss_kwargs a)) (a_key a) (a_restarts a) (g_state o) s0 s1 states losses /\
  g_results o' = Some NloptResult /\
  k_fit C TTargets = Some (g, body) /\ body (Targets x y) (Options (o_iterative (a_options a)) ONone) s1 = Ok (g_state o') /\
  (if a_history a then g_states o' = Some states /\ g_losses o' = Some losses else g_states o' = g_states o /\ g_losses o' = g_losses o).
Proof. exact nlopt_trained. Qed.
Print Assumptions C76_training_nlopt.

(** a fit that does not minimise leaves all three *)
Theorem C76_no_training : forall lossfn sample key_precond C o d a r o', a_minimize a = None ->
  object_fit lossfn sample key_precond C d a o = (r, o') -> g_results o' = g_results o /\ g_states o' = g_states o /\ g_losses o' = g_losses o.
Proof. exact step_results. Qed.
Print Assumptions C76_no_training.
(** a step that raises leaves the histories *)
Theorem C76_raised : forall lossfn sample key_precond C o p e o', object_step lossfn sample key_precond C o p = (Err e, o') ->
  g_states o' = g_states o /\ g_losses o' = g_losses o.
Proof. exact step_raised. Qed.
Print Assumptions C76_raised.
(** the histories are those of the last fit with return_history, whatever came after it but a randomisation *)
Theorem C76_last : forall lossfn sample key_precond C ps p ps' o o' r,
  let o1 := object_run lossfn sample key_precond C ps o in
  object_step lossfn sample key_precond C o1 p = (r, o') -> Forall (fun p => with_history p = false /\ is_randomize p = false) ps' ->
  let e := object_run lossfn sample key_precond C (ps ++ p :: ps') o in g_states e = g_states o' /\ g_losses e = g_losses o'.
Proof. exact run_last. Qed.
Print Assumptions C76_last.
(** without such a fit there are none *)
Theorem C76_none : forall lossfn sample key_precond C ps s, Forall (fun p => with_history p = false) ps ->
  let e := object_run lossfn sample key_precond C ps (from_state s) in g_states e = None /\ g_losses e = None.
Proof. exact run_none. Qed.
Print Assumptions C76_none.
(** a randomised model starts without the attributes, and has no histories before the next such fit *)
Theorem C76_randomized : forall lossfn sample key_precond C ps k reset ps' o o',
  object_step lossfn sample key_precond C (object_run lossfn sample key_precond C ps o) (ORandomize k reset) = (Ok tt, o') ->
  g_results o' = None /\ (Forall (fun p => with_history p = false) ps' ->
  let e := object_run lossfn sample key_precond C (ps ++ ORandomize k reset :: ps') o in g_states e = None /\ g_losses e = None).
Proof. exact run_randomized. Qed.
Print Assumptions C76_randomized.
Example C76_randomized_case : exists o, object_run ex_lossfn ex_sampler ONone (GPR ex_num) [hist_fit 1 true; ORandomize (Key 0) false; hist_fit 2 false] hist_obj = o /\
  (exists o', object_step ex_lossfn ex_sampler ONone (GPR ex_num) (object_run ex_lossfn ex_sampler ONone (GPR ex_num) [hist_fit 1 true] hist_obj) (ORandomize (Key 0) false) = (Ok tt, o')) /\
  g_results o = Some (ScipyResult (vec [2; 2]%R)) /\ g_states o = None.
Proof. exact hist_randomized. Qed.
(** so they need not belong to the last training: none of the listed states has the parameters of the model *)
Theorem C76_current_refuted : exists lossfn sample key_precond N o0 p q o1 o2 states, state_ok (g_state o0) /\
  object_step lossfn sample key_precond (GPR N) o0 p = (Ok tt, o1) /\ object_step lossfn sample key_precond (GPR N) o1 q = (Ok tt, o2) /\
  (exists d a strat, q = OFit d a /\ a_minimize a = Some strat) /\
  g_states o2 = Some states /\ forall u, In u states -> s_params u <> s_params (g_state o2).
Proof. exact hist_stale. Qed.
Print Assumptions C76_current_refuted.
