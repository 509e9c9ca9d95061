(** Property C61: the life cycle of a GPR_TD model. *)
From Coq Require Import String List Bool Arith Reals.
From Verif Require Import Model.PyDict Model.Bijectors Model.Params Model.State Model.Optim Model.Calls Model.Lifecycle Model.TDClass
  Spec.DictSpec Spec.StateSpec Spec.RandomSpec Spec.LifecycleSpec Spec.TDClassSpec
  Proofs.StateExamples Proofs.DispatchFacts Proofs.TDClassLemmas Proofs.Construction.
Import ListNotations.
Open Scope string_scope.
Open Scope nat_scope.

(** construction: valid parameters are accepted, and the state holds these and no others *)
Theorem C61_construction : forall kernel mean kp st sd sd2 l, obj_ok kernel -> obj_ok mean -> ptree_ok kp -> opt_ok st -> opt_ok sd -> opt_ok sd2 ->
  exists s0, td_init kernel mean (Some kp) st sd sd2 (OCall l) = Ok s0 /\ s_kernel s0 = kernel /\ s_mean s0 = mean /\ state_ok s0 /\
  same_leaves (s_params s0) (Node [("kernel_params", kp); ("sigma_targets", Leaf st); ("sigma_derivs", Leaf sd); ("sigma_derivs2", Leaf sd2)]).
Proof. exact td_built. Qed.
Print Assumptions C61_construction.
(** over every history of fits, saves and loads: predict raises before the first fit that returned, and
    afterwards uses the data and coefficients of the last one (or of the file loaded since) *)
Theorem C61_history : forall lossfn sample key_precond num_fit num_predict interned s0 kernel mean kp st sd sd2 l,
  state_ok s0 -> sampler_ok sample -> float_params (s_params s0) -> names_ok interned ["params"] (s_params s0) -> td_plain_numerics num_fit ->
  td_init kernel mean kp st sd sd2 (OCall l) = Ok s0 -> forall os es s fs, Forall td_call_ok os ->
  td_run lossfn sample key_precond num_fit interned os (s0, fun _ => None) = (es, (s, fs)) ->
  td_serves key_precond num_fit num_predict kernel mean s (tv_fit (td_observe es)).
Proof. exact td_history. Qed.
Print Assumptions C61_history.
(** and its parameters are those of that fit unless a fit with minimisation failed since *)
Theorem C61_fresh : forall lossfn sample key_precond num_fit interned s0 kernel mean kp st sd sd2 l,
  state_ok s0 -> sampler_ok sample -> float_params (s_params s0) -> names_ok interned ["params"] (s_params s0) -> td_plain_numerics num_fit ->
  td_init kernel mean kp st sd sd2 (OCall l) = Ok s0 -> forall os es s fs, Forall td_call_ok os ->
  td_run lossfn sample key_precond num_fit interned os (s0, fun _ => None) = (es, (s, fs)) ->
  tv_fresh (td_observe es) = true -> forall p d a, tv_fit (td_observe es) = Some (p, d, a) -> p = s_params s.
Proof. exact td_fresh. Qed.
Print Assumptions C61_fresh.
Example C61_history_case :
  (state_ok (exd_state 1 1 1 (Some exd_sigma)) /\ sampler_ok ex_sampler /\ float_params (s_params (exd_state 1 1 1 (Some exd_sigma))) /\
   names_ok cpython_interned ["params"] (s_params (exd_state 1 1 1 (Some exd_sigma))) /\ td_plain_numerics exd_fit /\ Forall td_call_ok exd_ops3 /\
   td_init (OCall 1) (OCall 2) (Some (exd_kp 1)) (Some exd_sigma) (Some exd_sigma) (Some exd_sigma) (OCall 7) = Ok (exd_state 1 1 1 (Some exd_sigma))) /\
  exists es s fs,
  td_run exd_loss ex_sampler ONone exd_fit cpython_interned exd_ops3 (exd_state 1 1 1 (Some exd_sigma), fun _ => None) = (es, (s, fs)) /\
  map (fun e => snd (fst e)) es = [Ok tt; Ok tt; Err ValueError; Ok tt] /\ tv_fresh (td_observe es) = true /\
  tv_fit (td_observe es) = Some (s_params (exd_state 1 (forward Softplus 1) (forward Softplus 1) (Some (scalar_param true (forward Softplus 1)))), exd_data, exd_args ex_min3).
Proof.
  exact (conj (conj (exd_ok 1 1 1 _ (or_intror eq_refl)) (conj ex_sampler_ok (conj (exd_float 1 1 1 _ (or_intror eq_refl)) (conj (exd_names 1 1 1 _)
    (conj exd_plain (conj exd_ops3_ok (exd_init _ (or_intror eq_refl)))))))) exd_history).
Qed.
(** a model built with all its parameters can be saved after any history, and a model built alike, from
    other values, that loads the file predicts the same *)
Theorem C61_saved : forall lossfn sample key_precond num_fit num_predict interned s0 kernel mean kp st sd sd2 l,
  state_ok s0 -> sampler_ok sample -> float_params (s_params s0) -> names_ok interned ["params"] (s_params s0) -> td_plain_numerics num_fit ->
  td_init kernel mean kp st sd sd2 (OCall l) = Ok s0 -> savable interned (s_params s0) ->
  forall kp' st' sd' sd2' l' s1 os es s fs os' es' t fs0, state_ok s1 -> tree_def (s_params s1) = tree_def (s_params s0) ->
  td_init kernel mean kp' st' sd' sd2' (OCall l') = Ok s1 -> Forall td_call_ok os -> Forall td_call_ok os' ->
  td_run lossfn sample key_precond num_fit interned os (s0, fun _ => None) = (es, (s, fs)) ->
  td_run lossfn sample key_precond num_fit interned os' (s1, fun _ => None) = (es', (t, fs0)) ->
  forall f, exists d fs' t', save s f fs = (Ok d, fs') /\ load interned t (npz_name f) fs' = Ok t' /\
    s_params t' = s_params s /\ forall q, td_predict num_predict t' q = td_predict num_predict s q.
Proof. exact td_saved. Qed.
Print Assumptions C61_saved.
Example C61_saved_case : savable cpython_interned (s_params (exd_state 1 1 1 (Some exd_sigma))) /\
  state_ok (exd_state 3 1 1 (Some exd_sigma)) /\ tree_def (s_params (exd_state 3 1 1 (Some exd_sigma))) = tree_def (s_params (exd_state 1 1 1 (Some exd_sigma))) /\
  td_init (OCall 1) (OCall 2) (Some (exd_kp 3)) (Some exd_sigma) (Some exd_sigma) (Some exd_sigma) (OCall 7) = Ok (exd_state 3 1 1 (Some exd_sigma)).
Proof. exact (conj exd_savable (conj (exd_ok 3 1 1 _ (or_intror eq_refl)) (conj eq_refl eq_refl))). Qed.
(** but a model built without one of them, such as one for a single set of derivatives, can never be saved *)
Theorem C61_save_refuted : forall lossfn sample key_precond num_fit interned s0 kernel mean kp st sd sd2 l,
  state_ok s0 -> sampler_ok sample -> float_params (s_params s0) -> names_ok interned ["params"] (s_params s0) -> td_plain_numerics num_fit ->
  td_init kernel mean kp st sd sd2 (OCall l) = Ok s0 -> ptree_ok (td_params kp st sd sd2) -> td_left_out kp st sd sd2 ->
  forall os es s fs, Forall td_call_ok os -> td_run lossfn sample key_precond num_fit interned os (s0, fun _ => None) = (es, (s, fs)) ->
  Forall (fun e => match fst (fst e) with TDSave _ => snd (fst e) = Err AttributeError | _ => True end) es /\ forall g, fs g = None.
Proof. exact td_never_saved. Qed.
Print Assumptions C61_save_refuted.
Example C61_save_case :
  state_ok (exd_state 1 1 1 None) /\ float_params (s_params (exd_state 1 1 1 None)) /\ names_ok cpython_interned ["params"] (s_params (exd_state 1 1 1 None)) /\
  td_init (OCall 1) (OCall 2) (Some (exd_kp 1)) (Some exd_sigma) (Some exd_sigma) None (OCall 7) = Ok (exd_state 1 1 1 None) /\
  ptree_ok (td_params (Some (exd_kp 1)) (Some exd_sigma) (Some exd_sigma) None) /\ td_left_out (Some (exd_kp 1)) (Some exd_sigma) (Some exd_sigma) None /\
  td_fit exd_loss ex_sampler ONone exd_fit exd_data (exd_args None) (exd_state 1 1 1 None) = (Ok tt, exd_after 1 1 1 None).
Proof.
  exact (conj (exd_ok 1 1 1 _ (or_introl eq_refl)) (conj (exd_float 1 1 1 _ (or_introl eq_refl)) (conj (exd_names 1 1 1 _) (conj (exd_init _ (or_introl eq_refl))
    (conj (exd_params_ok _ (or_introl eq_refl)) (conj (or_intror (or_intror (or_intror eq_refl))) exd_first_fit)))))).
Qed.
(** the default loss can be called with what fit passes *)
Theorem C61_default_loss : forall key_precond body d a x s, (forall k, In k (map fst (ta_loss_kwargs a)) -> In k ["num_evals"; "num_lanczos"; "key_lanczos"]) ->
  td_loss_positional (td_loss_sig, body) d (td_loss_kwargs key_precond a) x s = body d (td_loss_kwargs key_precond a) s /\
  td_loss_keywords (td_loss_sig, body) d (td_loss_kwargs key_precond a) s = bind (body d (td_loss_kwargs key_precond a) s) (fun v => Ok (fst v)).
Proof. exact td_default_loss. Qed.
Print Assumptions C61_default_loss.
Example C61_default_loss_case : forall k, In k (map fst (ta_loss_kwargs (exd_args None))) -> In k ["num_evals"; "num_lanczos"; "key_lanczos"].
Proof. intros k []. Qed.
(** the argument key_precond has no effect *)
Theorem C61_key_refuted : forall lossfn sample key_precond num_fit d it np cg mn r k h kw s key key',
  td_fit lossfn sample key_precond num_fit d (TDArgs it np key cg mn r k h kw) s =
  td_fit lossfn sample key_precond num_fit d (TDArgs it np key' cg mn r k h kw) s.
Proof. exact td_key_unused. Qed.
Print Assumptions C61_key_refuted.
(** after a fit that failed in the numerics the old coefficients are served with new parameters *)
Theorem C61_stale_refuted : exists lossfn sample key_precond num_fit num_predict s0 d d' a a' es s fs q r s' r', state_ok s0 /\ sampler_ok sample /\
  td_run lossfn sample key_precond num_fit cpython_interned [TDFit d a; TDFit d' a'] (s0, fun _ => None) = (es, (s, fs)) /\
  map (fun e => snd (fst e)) es = [Ok tt; Err ValueError] /\ td_predict num_predict s q = Ok r /\
  td_fit lossfn sample key_precond num_fit d a s = (Ok tt, s') /\ ta_minimize a = None /\
  td_predict num_predict s' q = Ok r' /\ r <> r'.
Proof. exact td_stale. Qed.
Print Assumptions C61_stale_refuted.
