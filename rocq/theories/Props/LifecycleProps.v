(** Properties C15-C17: the life cycle of a model, stale models, calls that reach what they call. *)
From Coq Require Import String List Bool Arith Reals ZArith.
From Verif Require Import Model.PyDict Model.Bijectors Model.Params Model.State Model.Optim Model.Calls Model.Lifecycle
  Spec.StateSpec Spec.RandomSpec Spec.OptimSpec Spec.LifecycleSpec
  Proofs.StateExamples Proofs.OptimExamples Proofs.LifecycleFacts Proofs.LifecyclePropLemmas Proofs.DispatchFacts.
Import ListNotations.
Open Scope string_scope.
Open Scope nat_scope.

(** ** C15 *)
(** over every history: each predictor answers exactly after a matching fit, from that fit *)
Theorem C15_gpr : forall lossfn sample key_precond interned N s0 os es s fs kernel mean kp sigma l,
  state_ok s0 -> sampler_ok sample -> float_params (s_params s0) -> savable interned (s_params s0) -> plain_numerics N ->
  Forall (call_ok (s_params s0)) os ->
  gpr_init kernel mean kp sigma (OCall l) = Ok s0 ->
  run lossfn sample key_precond interned (GPR N) os (s0, fun _ => None) = (es, (s, fs)) ->
  gpr_serves N kernel mean s (v_mode (observe es)).
Proof. exact C15_gpr_lemma. Qed.
Print Assumptions C15_gpr.
Theorem C15_sgpr : forall lossfn sample key_precond interned N s0 os es s fs kernel mean x_locs jacobian_locs kp sigma l,
  state_ok s0 -> sampler_ok sample -> float_params (s_params s0) -> savable interned (s_params s0) -> plain_numerics N ->
  Forall (call_ok (s_params s0)) os ->
  sgpr_init kernel mean x_locs jacobian_locs kp sigma (OCall l) = Ok s0 ->
  run lossfn sample key_precond interned (SGPR N) os (s0, fun _ => None) = (es, (s, fs)) ->
  sgpr_serves N kernel mean s (v_mode (observe es)).
Proof. exact C15_sgpr_lemma. Qed.
Print Assumptions C15_sgpr.
Theorem C15_sgpr_rpchol : forall lossfn sample key_precond interned N s0 os es s fs kernel mean n key kp sigma l,
  state_ok s0 -> sampler_ok sample -> float_params (s_params s0) -> savable interned (s_params s0) -> plain_numerics N ->
  Forall (call_ok (s_params s0)) os ->
  rpchol_init kernel mean (OInt n) (Some (OArr key)) kp sigma (OCall l) = Ok s0 -> plain key ->
  run lossfn sample key_precond interned (SGPR_RPChol N) os (s0, fun _ => None) = (es, (s, fs)) ->
  rpchol_serves N kernel mean (int0 n) key s (v_mode (observe es)).
Proof. exact C15_rp_lemma. Qed.
Print Assumptions C15_sgpr_rpchol.
Example C15_history_case :
  (state_ok (ex_s0 1) /\ sampler_ok ex_sampler /\ float_params (s_params (ex_s0 1)) /\ savable cpython_interned (s_params (ex_s0 1)) /\
   plain_numerics ex_num /\ Forall (call_ok (s_params (ex_s0 1))) ex_ops /\
   gpr_init (OCall 1) (OCall 2) (ex_kp 1) (scalar_param true 1) (OCall 7) = Ok (ex_s0 1)) /\
  exists es s fs,
  run ex_lossfn ex_sampler ONone cpython_interned (GPR ex_num) ex_ops (ex_s0 1, fun _ => None) = (es, (s, fs)) /\
  Forall (fun e => snd (fst e) = Ok tt) es /\ v_fresh (observe es) = true /\
  v_mode (observe es) = Fitted (Trained (ex_params (forward Softplus 1) 1 (forward Softplus 1)) ex_data (Options false ONone)).
Proof. exact history_case. Qed.
Example C15_sgpr_case :
  (state_ok ex_sg /\ sampler_ok ex_sampler /\ float_params (s_params ex_sg) /\ savable cpython_interned (s_params ex_sg) /\
   plain_numerics ex_num /\ Forall (call_ok (s_params ex_sg)) (ex_nl ex_sg) /\
   sgpr_init (OCall 1) (OCall 2) (scalar_param false 0) None (ex_kp 1) (scalar_param true 1) (OCall 7) = Ok ex_sg) /\
  exists es s fs, run ex_lossfn ex_sampler ONone cpython_interned (SGPR ex_num) (ex_nl ex_sg) (ex_sg, fun _ => None) = (es, (s, fs)) /\
  v_mode (observe es) = Fitted (Trained ex_sg_params ex_data (Options false ONone)).
Proof. exact sg_case. Qed.
Example C15_rpchol_case :
  (state_ok ex_rp /\ sampler_ok ex_sampler /\ float_params (s_params ex_rp) /\ savable cpython_interned (s_params ex_rp) /\
   plain_numerics ex_num /\ Forall (call_ok (s_params ex_rp)) (ex_nl ex_rp) /\
   rpchol_init (OCall 1) (OCall 2) (OInt 2) (Some (OArr ex_x1)) (ex_kp 1) (scalar_param true 1) (OCall 7) = Ok ex_rp /\ plain ex_x1) /\
  exists es s fs, run ex_lossfn ex_sampler ONone cpython_interned (SGPR_RPChol ex_num) (ex_nl ex_rp) (ex_rp, fun _ => None) = (es, (s, fs)) /\
  v_mode (observe es) = Fitted (Trained (ex_params 1 1 1) ex_data (Options false ONone)).
Proof. exact rp_case. Qed.
(** a model saved after any history and loaded by a model built alike, from other values and with another
    history, has the same parameters and the same predictions *)
Theorem C15_saved_gpr : forall lossfn sample key_precond interned N s0,
  state_ok s0 -> sampler_ok sample -> float_params (s_params s0) -> savable interned (s_params s0) -> plain_numerics N ->
  forall kernel mean kp sigma l kp' sigma', gpr_init kernel mean kp sigma (OCall l) = Ok s0 ->
  forall s1 os es s fs os' es' t fs0, state_ok s1 -> tree_def (s_params s1) = tree_def (s_params s0) ->
  gpr_init kernel mean kp' sigma' (OCall l) = Ok s1 ->
  Forall (call_ok (s_params s0)) os -> Forall (call_ok (s_params s0)) os' ->
  run lossfn sample key_precond interned (GPR N) os (s0, fun _ => None) = (es, (s, fs)) ->
  run lossfn sample key_precond interned (GPR N) os' (s1, fun _ => None) = (es', (t, fs0)) ->
  forall f, exists d fs' u, save s f fs = (Ok d, fs') /\ load interned t (npz_name f) fs' = Ok u /\
    s_params u = s_params s /\ same_predictions (GPR N) u s.
Proof. exact gpr_saved. Qed.
Print Assumptions C15_saved_gpr.
Theorem C15_saved_sgpr : forall lossfn sample key_precond interned N s0,
  state_ok s0 -> sampler_ok sample -> float_params (s_params s0) -> savable interned (s_params s0) -> plain_numerics N ->
  forall kernel mean x_locs jacobian_locs kp sigma l x_locs' jacobian_locs' kp' sigma', sgpr_init kernel mean x_locs jacobian_locs kp sigma (OCall l) = Ok s0 ->
  forall s1 os es s fs os' es' t fs0, state_ok s1 -> tree_def (s_params s1) = tree_def (s_params s0) ->
  sgpr_init kernel mean x_locs' jacobian_locs' kp' sigma' (OCall l) = Ok s1 ->
  Forall (call_ok (s_params s0)) os -> Forall (call_ok (s_params s0)) os' ->
  run lossfn sample key_precond interned (SGPR N) os (s0, fun _ => None) = (es, (s, fs)) ->
  run lossfn sample key_precond interned (SGPR N) os' (s1, fun _ => None) = (es', (t, fs0)) ->
  forall f, exists d fs' u, save s f fs = (Ok d, fs') /\ load interned t (npz_name f) fs' = Ok u /\
    s_params u = s_params s /\ same_predictions (SGPR N) u s.
Proof. exact sgpr_saved. Qed.
Print Assumptions C15_saved_sgpr.
Theorem C15_saved_rpchol : forall lossfn sample key_precond interned N s0,
  state_ok s0 -> sampler_ok sample -> float_params (s_params s0) -> savable interned (s_params s0) -> plain_numerics N ->
  forall kernel mean n key kp sigma l kp' sigma', rpchol_init kernel mean (OInt n) (Some (OArr key)) kp sigma (OCall l) = Ok s0 -> plain key ->
  forall s1 os es s fs os' es' t fs0, state_ok s1 -> tree_def (s_params s1) = tree_def (s_params s0) ->
  rpchol_init kernel mean (OInt n) (Some (OArr key)) kp' sigma' (OCall l) = Ok s1 ->
  Forall (call_ok (s_params s0)) os -> Forall (call_ok (s_params s0)) os' ->
  run lossfn sample key_precond interned (SGPR_RPChol N) os (s0, fun _ => None) = (es, (s, fs)) ->
  run lossfn sample key_precond interned (SGPR_RPChol N) os' (s1, fun _ => None) = (es', (t, fs0)) ->
  forall f, exists d fs' u, save s f fs = (Ok d, fs') /\ load interned t (npz_name f) fs' = Ok u /\
    s_params u = s_params s /\ same_predictions (SGPR_RPChol N) u s.
Proof. exact rp_saved. Qed.
Print Assumptions C15_saved_rpchol.
(** the hypotheses on s0 and the first history are those of C15_history_case, C15_sgpr_case and C15_rpchol_case *)
Example C15_saved_case : state_ok (ex_s0 3) /\ tree_def (s_params (ex_s0 3)) = tree_def (s_params (ex_s0 1)) /\ s_params (ex_s0 3) <> s_params (ex_s0 1) /\
  gpr_init (OCall 1) (OCall 2) (ex_kp 3) (scalar_param true 1) (OCall 7) = Ok (ex_s0 3) /\ Forall (call_ok (s_params (ex_s0 1))) ex_ops.
Proof. exact saved_case. Qed.
(** the predictors' guard, BaseGP._check_is_fitted, never raises *)
Theorem C15_guard_refuted : forall s, check_is_fitted s = Ok tt.
Proof. exact never_checked. Qed.
Print Assumptions C15_guard_refuted.
(** a failed call may leave other parameters behind *)
Theorem C15_failed_call_refuted : exists lossfn sample key_precond N d a s e u, state_ok s /\
  base_fit lossfn sample key_precond (GPR N) d a s = (Err e, u) /\ s_params u <> s_params s.
Proof. exact failed_call. Qed.
Print Assumptions C15_failed_call_refuted.
(** fit(minimize=False, return_history=True) raises after the model has become fitted *)
Theorem C15_history_refuted : exists lossfn sample key_precond N d a s u q r, state_ok s /\ a_minimize a = None /\ a_history a = true /\
  base_predict (GPR N) s q = Err RuntimeError /\
  base_fit lossfn sample key_precond (GPR N) d a s = (Err UnboundLocalError, u) /\ base_predict (GPR N) u q = Ok r.
Proof. exact history_unbound. Qed.
Print Assumptions C15_history_refuted.

(** ** C16 *)
(** the parameters are those of the fit unless the model was randomised without a reset or a minimising fit failed since *)
Theorem C16_fresh : forall lossfn sample key_precond interned N s0 os es s fs kernel mean kp sigma l,
  state_ok s0 -> sampler_ok sample -> float_params (s_params s0) -> savable interned (s_params s0) -> plain_numerics N ->
  Forall (call_ok (s_params s0)) os ->
  gpr_init kernel mean kp sigma (OCall l) = Ok s0 ->
  run lossfn sample key_precond interned (GPR N) os (s0, fun _ => None) = (es, (s, fs)) ->
  v_fresh (observe es) = true -> forall t, v_mode (observe es) = Fitted t -> t_params t = s_params s.
Proof. exact C16_gpr_lemma. Qed.
Print Assumptions C16_fresh.
Theorem C16_fresh_sgpr : forall lossfn sample key_precond interned N s0 os es s fs kernel mean x_locs jacobian_locs kp sigma l,
  state_ok s0 -> sampler_ok sample -> float_params (s_params s0) -> savable interned (s_params s0) -> plain_numerics N ->
  Forall (call_ok (s_params s0)) os ->
  sgpr_init kernel mean x_locs jacobian_locs kp sigma (OCall l) = Ok s0 ->
  run lossfn sample key_precond interned (SGPR N) os (s0, fun _ => None) = (es, (s, fs)) ->
  v_fresh (observe es) = true -> forall t, v_mode (observe es) = Fitted t -> t_params t = s_params s.
Proof. exact C16_sgpr_lemma. Qed.
Print Assumptions C16_fresh_sgpr.
Theorem C16_fresh_sgpr_rpchol : forall lossfn sample key_precond interned N s0 os es s fs kernel mean n key kp sigma l,
  state_ok s0 -> sampler_ok sample -> float_params (s_params s0) -> savable interned (s_params s0) -> plain_numerics N ->
  Forall (call_ok (s_params s0)) os ->
  rpchol_init kernel mean (OInt n) (Some (OArr key)) kp sigma (OCall l) = Ok s0 -> plain key ->
  run lossfn sample key_precond interned (SGPR_RPChol N) os (s0, fun _ => None) = (es, (s, fs)) ->
  v_fresh (observe es) = true -> forall t, v_mode (observe es) = Fitted t -> t_params t = s_params s.
Proof. exact C16_rp_lemma. Qed.
Print Assumptions C16_fresh_sgpr_rpchol.
(** stale predictions after randomize(reset=False): the same fit again gives another answer *)
Theorem C16_randomize_refuted : exists lossfn sample key_precond N s0 d a k es s fs q r s' r', state_ok s0 /\ sampler_ok sample /\
  run lossfn sample key_precond cpython_interned (GPR N) [Fit d a; Randomize k false] (s0, fun _ => None) = (es, (s, fs)) /\
  Forall (fun e => snd (fst e) = Ok tt) es /\ base_predict (GPR N) s q = Ok r /\
  base_fit lossfn sample key_precond (GPR N) d a s = (Ok tt, s') /\ a_minimize a = None /\
  base_predict (GPR N) s' q = Ok r' /\ r <> r'.
Proof. exact randomize_stale. Qed.
Print Assumptions C16_randomize_refuted.
(** and after a fit that failed *)
Theorem C16_failed_fit_refuted : exists lossfn sample key_precond N s0 d d' a a' es s fs q r s' r', state_ok s0 /\ sampler_ok sample /\
  run lossfn sample key_precond cpython_interned (GPR N) [Fit d a; Fit d' a'] (s0, fun _ => None) = (es, (s, fs)) /\
  map (fun e => snd (fst e)) es = [Ok tt; Err ValueError] /\ base_predict (GPR N) s q = Ok r /\
  base_fit lossfn sample key_precond (GPR N) d a s = (Ok tt, s') /\ a_minimize a = None /\
  base_predict (GPR N) s' q = Ok r' /\ r <> r'.
Proof. exact failed_fit_stale. Qed.
Print Assumptions C16_failed_fit_refuted.
(** m.init(...) does not touch m *)
Theorem C16_init_refuted : forall lossfn sample key_precond interned C fresh s fs, snd (step lossfn sample key_precond interned C (Init (Ok fresh)) (s, fs)) = (s, fs).
Proof. exact init_inert. Qed.
Print Assumptions C16_init_refuted.

(** ** C17 *)
(** GPR: fit, fit_derivs and fit_ol reach their training function, which runs *)
Theorem C17_gpr_fit : forall lossfn sample key_precond N d a s lf l f, state_ok s -> a_minimize a = None -> a_history a = false ->
  get "loss_fn" (s_register s) = Some lf -> lossfn lf = Some l ->
  n_fit N (task_of d) (s_params s) (s_kernel s) (s_mean s) [] d (a_options a) = Ok f ->
  exists u, base_fit lossfn sample key_precond (GPR N) d a s = (Ok tt, u).
Proof. exact gpr_fit_dispatch. Qed.
Print Assumptions C17_gpr_fit.
Example C17_gpr_fit_case : base_fit ex_lossfn ex_sampler ONone (GPR ex_num) ex_data (ex_args None false) (ex_s0 1) = (Ok tt, ex_f (ex_params 1 1 1) 1).
Proof. exact (ex_step_fit 1). Qed.
(** fit_nlopt works for GPR and SGPR *)
Theorem C17_fit_nlopt : forall lossfn sample N C x y w a s lf l f, C = GPR N \/ C = SGPR N -> state_ok s -> a_minimize a = None -> a_history a = false ->
  get "loss_fn" (s_register s) = Some lf -> lossfn lf = Some l ->
  n_fit N TTargets (s_params s) (s_kernel s) (s_mean s) [] (Targets x y) (Options (o_iterative (a_options a)) ONone) = Ok f ->
  exists u, base_fit_nlopt lossfn sample C x y w a s = (Ok tt, u).
Proof. exact nlopt_dispatch. Qed.
Print Assumptions C17_fit_nlopt.
(** which library loss a minimising fit, fit_derivs or fit_ol can call; the default NLML only with fit *)
Theorem C17_losses : forall fam t l g key_precond a, loss_sig fam l = Some g ->
  (forall k, In k (map fst (a_loss_kwargs a)) -> In k loss_options) ->
  accepts g 0 (["state"; "x"; "y"] ++ map fst (match t with TBoth => [] | _ => fit_loss_kwargs key_precond a end) ++ more_names t)%list = usable fam t l.
Proof. exact usable_spec. Qed.
Print Assumptions C17_losses.
(** an unusable loss makes the call fail before anything changes *)
Theorem C17_unusable_loss_refuted : forall lossfn sample key_precond C fam l g f d a s lf strat,
  get "loss_fn" (s_register s) = Some lf -> lossfn lf = Some (g, f) -> a_minimize a = Some strat ->
  loss_sig fam l = Some g -> (forall k, In k (map fst (a_loss_kwargs a)) -> In k loss_options) -> usable fam (task_of d) l = false ->
  exists e, base_fit lossfn sample key_precond C d a s = (Err e, s).
Proof. exact unusable_loss. Qed.
Print Assumptions C17_unusable_loss_refuted.
(** fit, fit_derivs and fit_ol of the sparse classes never succeed *)
Theorem C17_sparse_fit_refuted : forall lossfn sample key_precond N C d a s, C = SGPR N \/ C = SGPR_RPChol N ->
  exists e u, base_fit lossfn sample key_precond C d a s = (Err e, u) /\
  (a_minimize a = None -> u = s /\ forall lf l, get "loss_fn" (s_register s) = Some lf -> lossfn lf = Some l ->
     e = match d with Both _ _ _ _ => AttributeError | _ => TypeError end).
Proof. exact sparse_fit. Qed.
Print Assumptions C17_sparse_fit_refuted.
(** and may still move the parameters *)
Theorem C17_sparse_damage_refuted : exists lossfn sample key_precond N d a s u, state_ok s /\
  base_fit lossfn sample key_precond (SGPR N) d a s = (Err TypeError, u) /\ s_params u <> s_params s.
Proof. exact sparse_moves. Qed.
Print Assumptions C17_sparse_damage_refuted.
Theorem C17_sparse_predict_ol_refuted : forall N C s q, C = SGPR N \/ C = SGPR_RPChol N -> base_predict_ol C s q = Err AttributeError.
Proof. exact predict_ol_sparse. Qed.
Print Assumptions C17_sparse_predict_ol_refuted.
(** RBFNet: every way of fitting raises, two of them after clearing k_mean *)
Theorem C17_rbf_refuted : forall kind rest s, state_ok s -> exists u, rbf_fit kind rest s = (Err TypeError, u) /\
  match kind with RNlopt => u = s | _ => get "k_mean" (s_register u) = Some ONone end.
Proof. exact rbf_never_fits. Qed.
Print Assumptions C17_rbf_refuted.
(** SGPR_RPChol.init without a key *)
Theorem C17_rpchol_key_refuted : forall kernel mean n kp sigma l, exists e, rpchol_init kernel mean n None kp sigma l = Err e.
Proof. exact rpchol_no_key. Qed.
Print Assumptions C17_rpchol_key_refuted.
