(** Facts on a dictionary shared by several fits. *)
From Coq Require Import List String Bool Arith Reals.
From Verif Require Import Model.PyDict Model.Bijectors Model.Params Model.State Model.Optim Model.Calls Model.Lifecycle Model.TDClass Model.LossKwargs
  Spec.LossKwargsSpec Spec.StateSpec Spec.LifecycleSpec Proofs.DictFacts Proofs.StateExamples Proofs.DispatchFacts Proofs.TDClassLemmas.
Import ListNotations.
Open Scope string_scope.

Lemma set_comm : forall {A} k k' (v v' : A) d, k <> k' -> In k (map fst d) -> set k v (set k' v' d) = set k' v' (set k v d).
Proof.
  intros A k k' v v' d N. induction d as [|[q u] d IH]; [intros []|]. cbn [map fst In set]. intro H.
  destruct (String.eqb k' q) eqn:E'.
  - apply String.eqb_eq in E'. subst q. cbn [set]. destruct (String.eqb k k') eqn:E; [apply String.eqb_eq in E; contradiction|].
    cbn [set]. rewrite String.eqb_refl. reflexivity.
  - cbn [set]. destruct (String.eqb k q) eqn:E.
    + cbn [set]. rewrite E'. reflexivity.
    + cbn [set]. rewrite E'. f_equal. apply IH. destruct H as [H|H]; [|exact H]. subst q. rewrite String.eqb_refl in E. discriminate.
Qed.
Definition write3 (b p q : obj) (d : dict obj) : dict obj := set "key_precond" q (set "n_pivots" p (set "iterative" b d)).
Lemma in_set3 : forall k k' (v : obj) d, In k (map fst (set k' v d)) <-> k = k' \/ In k (map fst d).
Proof. intros. apply in_set_keys. Qed.
Lemma write3_iter : forall b b' p q d, write3 b p q (set "iterative" b' d) = write3 b p q d.
Proof. intros. unfold write3. now rewrite set_set. Qed.
Lemma write3_write3 : forall b b' p p' q q' d, write3 b p q (write3 b' p' q' d) = write3 b p q d.
Proof.
  intros. unfold write3.
  rewrite (set_comm "iterative" "key_precond") by (try discriminate; rewrite !in_set3; tauto).
  rewrite (set_comm "iterative" "n_pivots") by (try discriminate; rewrite !in_set3; tauto). rewrite set_set.
  rewrite (set_comm "n_pivots" "key_precond") by (try discriminate; rewrite !in_set3; tauto). now rewrite !set_set.
Qed.

Section S.
  Context (lossfn : obj -> option (sig * (data -> dict obj -> state -> result (num * array))))
    (td_lossfn : obj -> option (sig * (td_data -> dict obj -> state -> result (num * array))))
    (sample : key -> prior_obj -> array) (key_precond : obj).
  Notation sstep := (shared_step lossfn td_lossfn sample key_precond).
  Notation srun := (shared_run lossfn td_lossfn sample key_precond).

  Lemma step_dict : forall w c, w_dict (snd (sstep w c)) =
    match asks_iterative c, asks_pivots c with
    | Some b, Some p => write3 (OBool b) p key_precond (w_dict w)
    | Some b, None => set "iterative" (OBool b) (w_dict w)
    | None, _ => w_dict w
    end.
  Proof. intros w [i C d a|i C x y wr a|i nf d a]; [destruct d|..]; reflexivity. Qed.
  Lemma run_cons : forall c cs w, srun (c :: cs) w = srun cs (snd (sstep w c)).
  Proof. reflexivity. Qed.
  Lemma run_app : forall cs cs' w, srun (cs ++ cs') w = srun cs' (srun cs w).
  Proof. intros. unfold shared_run. apply fold_left_app. Qed.
  Lemma asks_both : forall c, asks_iterative c = None -> asks_pivots c = None.
  Proof. intros [i C d a|i C x y wr a|i nf d a]; [destruct d|..]; cbn; congruence. Qed.

  (** what a later fit writes hides what earlier calls wrote *)
  Lemma write3_run : forall cs w b p q, write3 b p q (w_dict (srun cs w)) = write3 b p q (w_dict w).
  Proof.
    induction cs as [|c cs IH]; intros w b p q; [reflexivity|]. rewrite run_cons, IH, step_dict.
    destruct (asks_iterative c); [|reflexivity]. destruct (asks_pivots c); [apply write3_write3|apply write3_iter].
  Qed.
  Lemma iter_run : forall cs w b, never_asked asks_pivots cs -> set "iterative" b (w_dict (srun cs w)) = set "iterative" b (w_dict w).
  Proof.
    induction cs as [|c cs IH]; intros w b H; [reflexivity|]. inversion H as [|? ? H1 H2]; subst. rewrite run_cons, IH by exact H2. rewrite step_dict, H1.
    destruct (asks_iterative c); [apply set_set|reflexivity].
  Qed.
  Lemma get_step_other : forall k w c, ~ In k ["iterative"; "n_pivots"; "key_precond"] -> get k (w_dict (snd (sstep w c))) = get k (w_dict w).
  Proof.
    intros k w c H. rewrite step_dict. cbn in H.
    assert (k <> "iterative" /\ k <> "n_pivots" /\ k <> "key_precond") as [H1 [H2 H3]] by (repeat split; intros ->; tauto).
    destruct (asks_iterative c); [|reflexivity]. destruct (asks_pivots c); unfold write3; rewrite !get_set_other by assumption; reflexivity.
  Qed.
  Lemma get_run_other : forall cs k w, ~ In k ["iterative"; "n_pivots"; "key_precond"] -> get k (w_dict (srun cs w)) = get k (w_dict w).
  Proof. induction cs as [|c cs IH]; intros k w H; [reflexivity|]. rewrite run_cons, IH by exact H. now apply get_step_other. Qed.
  Lemma iterative_step : forall w c b, asks_iterative c = Some b -> get "iterative" (w_dict (snd (sstep w c))) = Some (OBool b).
  Proof.
    intros w c b H. rewrite step_dict, H. destruct (asks_pivots c); unfold write3; rewrite ?(get_set_other "iterative") by discriminate; apply get_set_same.
  Qed.
  Lemma iterative_kept : forall cs w, never_asked asks_iterative cs -> w_dict (srun cs w) = w_dict w.
  Proof.
    induction cs as [|c cs IH]; intros w H; [reflexivity|]. inversion H as [|? ? H1 H2]; subst. rewrite run_cons, IH by exact H2. now rewrite step_dict, H1.
  Qed.
  Lemma pivots_step : forall w c p, asks_pivots c = Some p ->
    get "n_pivots" (w_dict (snd (sstep w c))) = Some p /\ get "key_precond" (w_dict (snd (sstep w c))) = Some key_precond.
  Proof.
    intros w c p H. rewrite step_dict, H. destruct (asks_iterative c) eqn:E; [|apply asks_both in E; congruence]. unfold write3. split.
    - rewrite get_set_other by discriminate. apply get_set_same.
    - apply get_set_same.
  Qed.
  Lemma pivots_kept : forall cs w k, k <> "iterative" -> never_asked asks_pivots cs -> get k (w_dict (srun cs w)) = get k (w_dict w).
  Proof.
    induction cs as [|c cs IH]; intros w k N H; [reflexivity|]. inversion H as [|? ? H1 H2]; subst. rewrite run_cons, IH by assumption. rewrite step_dict, H1.
    destruct (asks_iterative c); [apply get_set_other; exact N|reflexivity].
  Qed.
  Lemma shared_contents : forall cs w, let d := w_dict (srun cs w) in
    (forall k, ~ In k ["iterative"; "n_pivots"; "key_precond"] -> get k d = get k (w_dict w)) /\
    (forall b, last_asked asks_iterative cs b -> get "iterative" d = Some (OBool b)) /\
    (never_asked asks_iterative cs -> d = w_dict w) /\
    (forall p, last_asked asks_pivots cs p -> get "n_pivots" d = Some p /\ get "key_precond" d = Some key_precond) /\
    (never_asked asks_pivots cs -> get "n_pivots" d = get "n_pivots" (w_dict w) /\ get "key_precond" d = get "key_precond" (w_dict w)).
  Proof.
    intros cs w d. subst d. split; [intros; now apply get_run_other|]. split; [|split; [apply iterative_kept|split]].
    - intros b [cs1 [c [cs2 [-> [H1 H2]]]]]. rewrite run_app, run_cons, iterative_kept by exact H2. now apply iterative_step.
    - intros p [cs1 [c [cs2 [-> [H1 H2]]]]]. rewrite run_app, run_cons, !pivots_kept by (try discriminate; exact H2). now apply pivots_step.
    - intro H. rewrite !pivots_kept by (try discriminate; exact H). split; reflexivity.
  Qed.

  (** only the keyword arguments of the loss depend on the dictionary *)
  Lemma minimisation_given : forall a e m d kw s, minimisation lossfn sample (given a e) m d kw s = minimisation lossfn sample a m d kw s.
  Proof. reflexivity. Qed.
  Lemma fit_given : forall C d a e e' s, (match d with Both _ _ _ _ => True | _ => fit_loss_kwargs key_precond (given a e) = fit_loss_kwargs key_precond (given a e') end) ->
    base_fit lossfn sample key_precond C d (given a e) s = base_fit lossfn sample key_precond C d (given a e') s.
  Proof. intros C d a e e' s H. unfold base_fit. destruct d; [rewrite H; reflexivity..|reflexivity]. Qed.
  Lemma nlopt_given : forall C x y wr a e e' s, nlopt_loss_kwargs (given a e) = nlopt_loss_kwargs (given a e') ->
    base_fit_nlopt lossfn sample C x y wr (given a e) s = base_fit_nlopt lossfn sample C x y wr (given a e') s.
  Proof. intros C x y wr a e e' s H. unfold base_fit_nlopt. rewrite H. reflexivity. Qed.
  Lemma td_fit_given : forall nf d a e e' s, td_loss_kwargs key_precond (td_given a e) = td_loss_kwargs key_precond (td_given a e') ->
    td_fit td_lossfn sample key_precond nf d (td_given a e) s = td_fit td_lossfn sample key_precond nf d (td_given a e') s.
  Proof. intros nf d a e e' s H. unfold td_fit, td_minimisation. rewrite H. reflexivity. Qed.
  Lemma put_same : forall i s ms, put i s ms i = s.
  Proof. intros. unfold put. now rewrite Nat.eqb_refl. Qed.

  Lemma shared_fit : forall cs d0 ms i C d a w r w', srun cs (World d0 ms) = w -> sstep w (SFit i C d a) = (r, w') ->
    (r, w_models w' i) = base_fit lossfn sample key_precond C d (given a d0) (w_models w i).
  Proof.
    intros cs d0 ms i C d a w r w' HW H. cbn [shared_step] in H. injection H as <- <-. cbn [w_models]. rewrite put_same, <- surjective_pairing.
    apply fit_given. destruct d; try exact I; subst w; apply (write3_run cs (World d0 ms) _ _ _).
  Qed.
  Lemma shared_td : forall cs d0 ms i nf d a w r w', srun cs (World d0 ms) = w -> sstep w (STd i nf d a) = (r, w') ->
    (r, w_models w' i) = td_fit td_lossfn sample key_precond nf d (td_given a d0) (w_models w i).
  Proof.
    intros cs d0 ms i nf d a w r w' HW H. cbn [shared_step] in H. injection H as <- <-. cbn [w_models]. rewrite put_same, <- surjective_pairing.
    apply td_fit_given. subst w. apply (write3_run cs (World d0 ms) _ _ _).
  Qed.
  Lemma shared_nlopt : forall cs d0 ms i C x y wr a w r w', srun cs (World d0 ms) = w -> never_asked asks_pivots cs -> sstep w (SNlopt i C x y wr a) = (r, w') ->
    (r, w_models w' i) = base_fit_nlopt lossfn sample C x y wr (given a d0) (w_models w i).
  Proof.
    intros cs d0 ms i C x y wr a w r w' HW HN H. cbn [shared_step] in H. injection H as <- <-. cbn [w_models]. rewrite put_same, <- surjective_pairing.
    apply nlopt_given. subst w. unfold nlopt_loss_kwargs. cbn [a_options a_loss_kwargs given]. apply (iter_run cs (World d0 ms)). exact HN.
  Qed.
  Lemma shared_others : forall w c r w' j, sstep w c = (r, w') ->
    j <> (match c with SFit i _ _ _ | SNlopt i _ _ _ _ _ | STd i _ _ _ => i end) -> w_models w' j = w_models w j.
  Proof.
    intros w c r w' j H N. destruct c; cbn [shared_step] in H; injection H as <- <-; cbn [w_models]; unfold put; apply Nat.eqb_neq in N; rewrite N; reflexivity.
  Qed.

  (** after a fit, fit_nlopt calls the loss with n_pivots and key_precond: a loss of the sparse modules refuses *)
  Lemma nlopt_leak : forall cs w p i C x y wr a lf l g f strat, last_asked asks_pivots cs p ->
    get "loss_fn" (s_register (w_models (srun cs w) i)) = Some lf -> lossfn lf = Some (g, f) -> loss_sig Sparse l = Some g -> a_minimize a = Some strat ->
    exists e w', sstep (srun cs w) (SNlopt i C x y wr a) = (Err e, w') /\ w_models w' i = w_models (srun cs w) i.
  Proof.
    intros cs w p i C x y wr a lf l g f strat HL HF HG HS HM.
    assert (HP : get "n_pivots" (w_dict (srun cs w)) = Some p) by (apply (shared_contents cs w); exact HL).
    set (v := srun cs w) in *. clearbody v. cbn [shared_step]. set (kw := nlopt_loss_kwargs (given a (w_dict v))).
    assert (HK : In "n_pivots" (map fst kw)).
    { unfold kw, nlopt_loss_kwargs. rewrite in_set3. right. cbn [given a_loss_kwargs]. apply get_in in HP. apply in_map_iff. exists ("n_pivots", p). split; [reflexivity|exact HP]. }
    assert (HA : accepts g 0 (["state"; "x"; "y"] ++ map fst kw ++ more_names TTargets)%list = false).
    { apply (rejects_kw _ _ "n_pivots"); [rewrite !in_app_iff; tauto|]. destruct l; cbn in HS; try discriminate; injection HS as <-; reflexivity. }
    assert (HR : exists e, base_fit_nlopt lossfn sample C x y wr (given a (w_dict v)) (w_models v i) = (Err e, w_models v i)).
    { unfold base_fit_nlopt. fold kw. unfold minimisation, attr. rewrite HF. cbn [bind]. rewrite HG. cbn [given a_minimize]. rewrite HM. unfold randomized_minimization.
      cbn [given a_key a_restarts]. destruct (check_random_key (a_key a) (a_restarts a)); [|cbn; eauto]. cbn [bind].
      match goal with |- context [bind (bind ?q _) _] => destruct q as [u|e] end; [|cbn; eauto]. cbn [bind fst].
      unfold loss_keywords. cbn [fst snd]. unfold call. change (task_of (Targets x y)) with TTargets. rewrite HA. eexists. reflexivity. }
    destruct HR as [e HR]. rewrite HR. cbn [fst snd]. do 2 eexists. split; [reflexivity|]. cbn [w_models]. apply put_same.
  Qed.
End S.

(** ** a GPR fitted without minimising, then an SGPR trained with fit_nlopt, one dictionary *)
(** loss 7 is NLML of gpr.py, loss 8 that of sgpr.py: signatures of the library, value 0 *)
Definition kw_lossfn (o : obj) : option (sig * (data -> dict obj -> state -> result (num * array))) :=
  let zero := fun _ _ _ => Ok (Some 0%R, Arr [] F64 [Some 0%R]) in
  match o with
  | OCall 7 => match loss_sig Dense NLML with Some g => Some (g, zero) | None => None end
  | OCall 8 => match loss_sig Sparse NLML with Some g => Some (g, zero) | None => None end
  | _ => None
  end.
Definition kw_sg : state :=
  State (OCall 1) (OCall 2) ex_sg_params [("loss_fn", OCall 8); ("is_fitted", OBool false); ("is_fitted_derivs", OBool false); ("c", ONone); ("mu", ONone)].
Definition kw_models : nat -> state := fun i => match i with O => ex_s0 1 | S O => kw_sg | _ => exd_state 1 1 1 None end.
Definition kw_user : dict obj := [("num_evals", OInt 25)].
Definition kw_pivots (m : option (array -> strategy (num * array) array)) : fit_args := FitArgs m 0 None false (Options true (OInt 8)) [].
Definition kw_fit : shared_call := SFit 0 (GPR ex_num) ex_data (kw_pivots None).
Definition kw_nl : shared_call := SNlopt 1 (SGPR ex_num) ex_x1 ex_x1 kw_sg (ex_args (ex_min 1 1) false).
Definition kw_td : shared_call := STd 2 exd_fit exd_data (exd_args None).
Lemma kw_sg_ok : state_ok kw_sg.
Proof.
  assert (P : ptree_ok ex_sg_params). { split; simpl; repeat split; nodup. }
  split; auto. split; [simpl; repeat split; repeat constructor|]. split; [nodup|]. split; [|split; exact I]. repeat constructor; simpl; tauto.
Qed.
Lemma kw_fit_runs : exists w', shared_step kw_lossfn exd_loss ex_sampler ONone (World kw_user kw_models) kw_fit = (Ok tt, w') /\
  w_dict w' = [("num_evals", OInt 25); ("iterative", OBool true); ("n_pivots", OInt 8); ("key_precond", ONone)] /\ w_models w' 1 = kw_sg.
Proof. eexists. split; [reflexivity|]. split; reflexivity. Qed.
Lemma kw_alone : exists w', shared_step kw_lossfn exd_loss ex_sampler ONone (World kw_user kw_models) kw_nl = (Ok tt, w').
Proof. eexists. reflexivity. Qed.
Lemma kw_after : exists w', shared_step kw_lossfn exd_loss ex_sampler ONone
  (shared_run kw_lossfn exd_loss ex_sampler ONone [kw_fit] (World kw_user kw_models)) kw_nl = (Err TypeError, w').
Proof. eexists. reflexivity. Qed.
Lemma kw_mixed : exists w', shared_run kw_lossfn exd_loss ex_sampler ONone [kw_nl; kw_td; kw_fit] (World kw_user kw_models) = w' /\
  last_asked asks_iterative [kw_nl; kw_td; kw_fit] true /\ last_asked asks_pivots [kw_nl; kw_td; kw_fit] (OInt 8) /\
  map (fun k => get k (w_dict w')) ["num_evals"; "iterative"; "n_pivots"] = [Some (OInt 25); Some (OBool true); Some (OInt 8)].
Proof.
  eexists. split; [reflexivity|]. split; [exists [kw_nl; kw_td], kw_fit, []; repeat split; constructor|].
  split; [exists [kw_nl; kw_td], kw_fit, []; repeat split; constructor|]. reflexivity.
Qed.
Lemma kw_refuted : exists lossfn td_lossfn sample key_precond d0 ms c c' w r w', (forall i, state_ok (ms i)) /\
  shared_step lossfn td_lossfn sample key_precond (World d0 ms) c = (Ok tt, w) /\ w_models w 1 = ms 1 /\
  (exists N x y wr a, c' = SNlopt 1 (SGPR N) x y wr a) /\
  shared_step lossfn td_lossfn sample key_precond (World d0 ms) c' = (Ok tt, r) /\
  shared_step lossfn td_lossfn sample key_precond w c' = (Err TypeError, w').
Proof.
  destruct kw_fit_runs as [w [H1 [_ H2]]]. destruct kw_alone as [r H3]. destruct kw_after as [w' H4]. unfold shared_run in H4. cbn [fold_left] in H4. rewrite H1 in H4. cbn [snd] in H4.
  exists kw_lossfn, exd_loss, ex_sampler, ONone, kw_user, kw_models, kw_fit, kw_nl, w, r, w'.
  split; [intros [|[|i]]; cbn [kw_models]; [apply ex_s0_ok|apply kw_sg_ok|apply exd_ok; left; reflexivity]|].
  split; [exact H1|]. split; [exact H2|]. split; [unfold kw_nl; do 5 eexists; reflexivity|]. split; [exact H3|exact H4].
Qed.
Lemma kw_written : exists lossfn td_lossfn sample key_precond d0 ms c w, (forall i, state_ok (ms i)) /\
  (exists C d a, c = SFit 0 C d a /\ a_minimize a = None) /\
  shared_step lossfn td_lossfn sample key_precond (World d0 ms) c = (Ok tt, w) /\ w_dict w <> d0.
Proof.
  destruct kw_fit_runs as [w [H1 [H2 _]]]. exists kw_lossfn, exd_loss, ex_sampler, ONone, kw_user, kw_models, kw_fit, w.
  split; [intros [|[|i]]; cbn [kw_models]; [apply ex_s0_ok|apply kw_sg_ok|apply exd_ok; left; reflexivity]|].
  split; [do 3 eexists; split; reflexivity|]. split; [exact H1|]. rewrite H2. discriminate.
Qed.
