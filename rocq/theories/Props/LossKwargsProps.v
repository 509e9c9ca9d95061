(** Property C75: what happens when the caller keeps one dictionary and passes it as loss_kwargs to several fits, of the
    same or of different models, in any order, also when some of them raise. Calls and worlds are those of
    Model/LossKwargs.v; last_asked and never_asked (Spec/LossKwargsSpec.v) only look at the arguments of the calls. *)
From Coq Require Import List String Bool Arith Reals.
From Verif Require Import Model.PyDict Model.Bijectors Model.Params Model.State Model.Optim Model.Calls Model.Lifecycle Model.TDClass Model.LossKwargs
  Spec.LossKwargsSpec Spec.StateSpec Spec.LifecycleSpec Proofs.StateExamples Proofs.DispatchFacts Proofs.TDClassLemmas Proofs.LossKwargsFacts.
Import ListNotations.
Open Scope string_scope.

(** the dictionary afterwards: the entries of the caller are kept but for three names, which hold the arguments of the
    last call that has them *)
Theorem C75_contents : forall lossfn td_lossfn sample key_precond cs w,
  let d := w_dict (shared_run lossfn td_lossfn sample key_precond cs w) in
  (forall k, ~ In k ["iterative"; "n_pivots"; "key_precond"] -> get k d = get k (w_dict w)) /\
  (forall b, last_asked asks_iterative cs b -> get "iterative" d = Some (OBool b)) /\
  (never_asked asks_iterative cs -> d = w_dict w) /\
  (forall p, last_asked asks_pivots cs p -> get "n_pivots" d = Some p /\ get "key_precond" d = Some key_precond) /\
  (never_asked asks_pivots cs -> get "n_pivots" d = get "n_pivots" (w_dict w) /\ get "key_precond" d = get "key_precond" (w_dict w)).
Proof. exact shared_contents. Qed.
Print Assumptions C75_contents.
Example C75_contents_case : exists w', shared_run kw_lossfn exd_loss ex_sampler ONone [kw_nl; kw_td; kw_fit] (World kw_user kw_models) = w' /\
  last_asked asks_iterative [kw_nl; kw_td; kw_fit] true /\ last_asked asks_pivots [kw_nl; kw_td; kw_fit] (OInt 8) /\
  map (fun k => get k (w_dict w')) ["num_evals"; "iterative"; "n_pivots"] = [Some (OInt 25); Some (OBool true); Some (OInt 8)].
Proof. exact kw_mixed. Qed.

(** fit and fit_derivs end, raise and leave their model as if they had been given the dictionary in its first form *)
Theorem C75_fit : forall lossfn td_lossfn sample key_precond cs d0 ms i C d a w r w',
  shared_run lossfn td_lossfn sample key_precond cs (World d0 ms) = w ->
  shared_step lossfn td_lossfn sample key_precond w (SFit i C d a) = (r, w') ->
  (r, w_models w' i) = base_fit lossfn sample key_precond C d (given a d0) (w_models w i).
Proof. exact shared_fit. Qed.
Print Assumptions C75_fit.
Example C75_fit_case : exists w', shared_step kw_lossfn exd_loss ex_sampler ONone (World kw_user kw_models) kw_fit = (Ok tt, w') /\
  w_dict w' = [("num_evals", OInt 25); ("iterative", OBool true); ("n_pivots", OInt 8); ("key_precond", ONone)] /\ w_models w' 1 = kw_sg.
Proof. exact kw_fit_runs. Qed.
(** so does fit of GPR_TD *)
Theorem C75_td_fit : forall lossfn td_lossfn sample key_precond cs d0 ms i num_fit d a w r w',
  shared_run lossfn td_lossfn sample key_precond cs (World d0 ms) = w ->
  shared_step lossfn td_lossfn sample key_precond w (STd i num_fit d a) = (r, w') ->
  (r, w_models w' i) = td_fit td_lossfn sample key_precond num_fit d (td_given a d0) (w_models w i).
Proof. exact shared_td. Qed.
Print Assumptions C75_td_fit.
(** and fit_nlopt, as long as the dictionary has only been through fit_nlopt *)
Theorem C75_nlopt : forall lossfn td_lossfn sample key_precond cs d0 ms i C x y wr a w r w',
  shared_run lossfn td_lossfn sample key_precond cs (World d0 ms) = w -> never_asked asks_pivots cs ->
  shared_step lossfn td_lossfn sample key_precond w (SNlopt i C x y wr a) = (r, w') ->
  (r, w_models w' i) = base_fit_nlopt lossfn sample C x y wr (given a d0) (w_models w i).
Proof. exact shared_nlopt. Qed.
Print Assumptions C75_nlopt.
Example C75_nlopt_case : exists w', shared_step kw_lossfn exd_loss ex_sampler ONone (World kw_user kw_models) kw_nl = (Ok tt, w').
Proof. exact kw_alone. Qed.
(** a call changes no other model *)
Theorem C75_others : forall lossfn td_lossfn sample key_precond w c r w' j,
  shared_step lossfn td_lossfn sample key_precond w c = (r, w') ->
  j <> (match c with SFit i _ _ _ | SNlopt i _ _ _ _ _ | STd i _ _ _ => i end) -> w_models w' j = w_models w j.
Proof. exact shared_others. Qed.
Print Assumptions C75_others.

(** the dictionary of the caller is written to, even by a fit that does not minimise *)
Theorem C75_unchanged_refuted : exists lossfn td_lossfn sample key_precond d0 ms c w, (forall i, state_ok (ms i)) /\
  (exists C d a, c = SFit 0 C d a /\ a_minimize a = None) /\
  shared_step lossfn td_lossfn sample key_precond (World d0 ms) c = (Ok tt, w) /\ w_dict w <> d0.
Proof. exact kw_written. Qed.
Print Assumptions C75_unchanged_refuted.
(** fit_nlopt after a fit: a training of an SGPR that works with the dictionary in its first form raises *)
Theorem C75_nlopt_refuted : exists lossfn td_lossfn sample key_precond d0 ms c c' w r w', (forall i, state_ok (ms i)) /\
  shared_step lossfn td_lossfn sample key_precond (World d0 ms) c = (Ok tt, w) /\ w_models w 1 = ms 1 /\
  (exists N x y wr a, c' = SNlopt 1 (SGPR N) x y wr a) /\
  shared_step lossfn td_lossfn sample key_precond (World d0 ms) c' = (Ok tt, r) /\
  shared_step lossfn td_lossfn sample key_precond w c' = (Err TypeError, w').
Proof. exact kw_refuted. Qed.
Print Assumptions C75_nlopt_refuted.
(** no training of a model with a loss of the sparse modules works after any fit with the same dictionary *)
Theorem C75_sparse_refuted : forall lossfn td_lossfn sample key_precond cs w p i C x y wr a lf l g f strat,
  last_asked asks_pivots cs p ->
  let v := shared_run lossfn td_lossfn sample key_precond cs w in
  get "loss_fn" (s_register (w_models v i)) = Some lf -> lossfn lf = Some (g, f) -> loss_sig Sparse l = Some g -> a_minimize a = Some strat ->
  exists e w', shared_step lossfn td_lossfn sample key_precond v (SNlopt i C x y wr a) = (Err e, w') /\ w_models w' i = w_models v i.
Proof. exact nlopt_leak. Qed.
Print Assumptions C75_sparse_refuted.
Example C75_sparse_case : exists w', shared_step kw_lossfn exd_loss ex_sampler ONone
  (shared_run kw_lossfn exd_loss ex_sampler ONone [kw_fit] (World kw_user kw_models)) kw_nl = (Err TypeError, w').
Proof. exact kw_after. Qed.
