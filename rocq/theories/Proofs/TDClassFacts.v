(** Invariant of GPR_TD over histories of calls. *)
From Coq Require Import String List Bool Arith Reals Lia.
From Verif Require Import Model.PyDict Model.Bijectors Model.Params Model.State Model.Optim Model.Calls Model.Lifecycle Model.TDClass
  Spec.DictSpec Spec.StateSpec Spec.RandomSpec Spec.OptimSpec Spec.LifecycleSpec Spec.TDClassSpec
  Proofs.DictFacts Proofs.TreeFacts Proofs.StateFacts Proofs.UpdateFacts Proofs.SaveLoad Proofs.RandomFacts
  Proofs.StatePropLemmas Proofs.OptimFacts Proofs.OptimRun Proofs.OptimSearch Proofs.StateExamples Proofs.OptimPropLemmas Proofs.LifecycleFacts Proofs.LifecyclePropLemmas.
Import ListNotations.
Open Scope string_scope.
Open Scope nat_scope.

(** ** what can be saved *)
Lemma save_needs : forall s d, state_ok s -> save_dict s = Ok d ->
  no_none (s_params s) /\ exists l lk, s_params s = Node l /\ get "kernel_params" l = Some (Node lk).
Proof.
  intros s d S H. unfold save_dict in H. destruct (s_params s) as [o|l] eqn:E; [discriminate|]. cbn [as_node bind] in H.
  destruct (get "kernel_params" l) as [kp|] eqn:G; [|discriminate]. destruct kp as [o|lk]; [discriminate|].
  destruct (flatten_none (Node lk) [] "params:kernel_params") as [[A1 [d1 A2]]|[A1 A2]]; rewrite A2 in H; cbn [bind] in H; [|discriminate].
  destruct (flatten_none (Node (del "kernel_params" l)) [] "params") as [[B1 [d2 B2]]|[B1 B2]]; rewrite B2 in H; cbn [bind] in H; [|discriminate].
  split; [|now exists l, lk]. eapply no_none_parts; eauto. destruct S as [[KD _] _]. rewrite E in KD. apply kd_node in KD. apply KD.
Qed.
Lemma names_def : forall interned path t t', sorted t -> sorted t' -> tree_def t = tree_def t' -> names_ok interned path t -> names_ok interned path t'.
Proof.
  intros interned path t t' S S' E H. rewrite !def_sorted in E by auto. apply (names_map (option_map p_meta)). rewrite <- E. now apply names_map.
Qed.

Definition td_names : list string :=
  ["loss_fn"; "x_train"; "jacobian_train"; "jacobian_train_2"; "jaccoef"; "jaccoef_2"; "y_train"; "y_derivs_train"; "y_derivs_train_2";
   "is_fitted"; "c"; "c_targets"; "mu"].
Lemma td_aux : forall k, In k td_names -> aux_name k.
Proof. aux_names. Qed.

Section Inv.
  Context (lossfn : obj -> option (sig * (td_data -> dict obj -> state -> result (num * array)))) (sample : key -> prior_obj -> array)
    (gkey : obj) (num_fit : td_numerics) (num_predict : ptree -> obj -> list obj -> td_query -> result (list array)) (interned : string -> bool) (s0 : state).
  Hypothesis PN : td_plain_numerics num_fit.
  Hypothesis SA : sampler_ok sample.
  Hypothesis FP : float_params (s_params s0).
  Hypothesis S0 : sorted (s_params s0).
  Hypothesis NO : names_ok interned ["params"] (s_params s0).

  Definition tshape (s : state) : Prop :=
    state_ok s /\ s_kernel s = s_kernel s0 /\ s_mean s = s_mean s0 /\ tree_def (s_params s) = tree_def (s_params s0) /\
    (forall k v, get k (s_register s) = Some v -> In k td_names /\ (storable v \/ is_callable v = true)).
  Definition tknows (m : option td_trained) (s : state) : Prop :=
    match m with
    | None => get "is_fitted" (s_register s) = Some (OBool false)
    | Some (p, d, a) => exists f, num_fit p (s_kernel s0) (s_mean s0) d (td_options_of gkey a) = Ok f /\
        forall k v, In (k, v) (td_fields d f) -> get k (s_register s) = Some v
    end.
  Definition tcoherent (m : option td_trained) (b : bool) (s : state) : Prop :=
    b = true -> match m with Some (p, _, _) => p = s_params s | None => True end.
  Definition tgood (m : option td_trained) (b : bool) (s : state) : Prop := tshape s /\ tknows m s /\ tcoherent m b s.

  Lemma tshape_alike : forall s u, tshape s -> alike s u -> tshape u.
  Proof.
    intros s u [H1 [H2 [H3 [H4 H5]]]] [A1 [A2 [A3 [A4 A5]]]]. split; [exact A1|]. rewrite A2, A3, A4, A5. tauto.
  Qed.
  Lemma tgood_weak : forall m b s u, tgood m b s -> alike s u -> tgood m false u.
  Proof.
    intros m b s u [H1 [H2 _]] A. split; [eapply tshape_alike; eauto|]. split; [|discriminate].
    unfold tknows in *. destruct A as [_ [_ [_ [-> _]]]]. exact H2.
  Qed.
  Lemma fields_storable : forall d f k v, td_plain d -> (forall k, plain (f k)) -> In (k, v) (td_fields d f) -> storable v.
  Proof.
    intros [x y j dy j2 dy2] f k v [P1 [P2 [P3 [P4 [P5 P6]]]]] PF H. cbn [td_x td_y td_jacobian td_y_derivs td_jacobian_2 td_y_derivs_2] in *.
    assert (X : Forall (fun kv => storable (snd kv)) (td_fields (TDData x y j dy j2 dy2) f)).
    { unfold td_fields. cbn [td_x td_y td_jacobian td_y_derivs td_jacobian_2 td_y_derivs_2].
      repeat apply Forall_cons; try apply Forall_nil; cbn [snd]; try assumption; try apply PF; try exact I;
        destruct j2, dy2; cbn in *; try assumption; try apply PF; exact I. }
    rewrite Forall_forall in X. exact (X _ H).
  Qed.
  Lemma fields_names : forall d f, map fst (td_fields d f) =
    ["x_train"; "y_train"; "jacobian_train"; "jacobian_train_2"; "jaccoef"; "jaccoef_2"; "y_derivs_train"; "y_derivs_train_2"; "c"; "c_targets"; "mu"; "is_fitted"].
  Proof. reflexivity. Qed.
  Lemma fields_nodup : forall d f, NoDup (map fst (td_fields d f)).
  Proof. intros. rewrite fields_names. nodup. Qed.
  Lemma fields_in : forall d f k, In k (map fst (td_fields d f)) -> In k td_names.
  Proof. intros d f k H. rewrite fields_names in H. cbn in *. tauto. Qed.
  Lemma tfit_good : forall a d s u, td_plain d -> tshape s -> td_fit_state gkey num_fit a d s = Ok u -> tgood (Some (s_params u, d, a)) true u.
  Proof.
    intros a d s u PD SO H. unfold td_fit_state in H. apply bind_ok in H. destruct H as [f [HF H]].
    pose proof SO as [H1 [H2 [H3 [H4 H5]]]].
    assert (PF : forall k, plain (f k)) by (intro k; eapply PN; eauto).
    assert (ST : forall k v, In (k, v) (td_fields d f) -> storable v) by (intros; eapply fields_storable; eauto).
    pose proof (fields_nodup d f) as ND. pose proof (fields_in d f) as IN. set (D := td_fields d f) in *.
    assert (R : forall k, In k (map fst D) -> ~ reserved k). { intros k Hk. destruct (td_aux k) as [_ [_ [_ X]]]; [now apply IN|exact X]. }
    assert (G : forall k, get k (norm (merge (s_register s) D)) = match get k D with Some v => Some v | None => get k (s_register s) end).
    { intro k. rewrite get_updated by auto. destruct (get k D) as [v|] eqn:E; [|reflexivity]. f_equal. apply storable_attr. apply (ST k). now apply get_in. }
    pose proof (update_attrs s D H1 ND R) as U. rewrite U in H. injection H as <-. cbn [s_params]. split; [|split].
    - split.
      + eapply state_update_ok; [exact H1| |exact U]. apply Forall_forall. intros [k v] I. cbn [snd]. apply ST in I. destruct v; try exact Logic.I; destruct I.
      + cbn [s_kernel s_mean s_params s_register]. split; [exact H2|]. split; [exact H3|]. split; [exact H4|].
        intros k v Hv. rewrite G in Hv. destruct (get k D) as [v'|] eqn:E; [|now apply H5]. injection Hv as <-. apply get_in in E.
        split; [|left; eapply ST; eauto]. apply IN. now apply (in_map fst) in E.
    - cbn [tknows]. exists f. split; [now rewrite <- H2, <- H3|]. intros k v Hv. cbn [s_register]. fold D in Hv. rewrite G.
      apply get_in_nodup in Hv; [|exact ND]. now rewrite Hv.
    - intros _. reflexivity.
  Qed.
  Lemma tshape_float : forall s, tshape s -> float_params (s_params s).
  Proof. intros s H. eapply float_def; [|exact FP]. symmetry. apply H. Qed.
  Lemma tmin_spec : forall a d s u h, tshape s -> td_minimisation lossfn sample gkey a d s = Ok (u, h) ->
    match ta_minimize a with None => u = s /\ h = false | Some _ => alike s u /\ h = true end.
  Proof.
    intros a d s u h SO H. unfold td_minimisation in H. apply bind_ok in H. destruct H as [lf [_ H]].
    destruct (lossfn lf) as [f|]; [|discriminate]. destruct (ta_minimize a) as [strat|]; [|injection H as <- <-; auto].
    apply bind_ok in H. destruct H as [[[[s' i] l] l'] [H E]]. cbn [fst] in E. injection E as <- <-. split; [|reflexivity].
    eapply search_alike; [apply SO|exact SA|now apply tshape_float| |exact H].
    intros v v' j Av Hv. apply bind_ok in Hv. destruct Hv as [w [Hw E]]. injection E as -> _.
    eapply alike_trans; [exact Av|]. eapply scipy_alike; [apply Av|exact Hw].
  Qed.
  Definition tafter (a : td_args) (b : bool) : bool := match ta_minimize a with Some _ => false | None => b end.
  Lemma tfit_step : forall d a m b s r u, tgood m b s -> td_call_ok (TDFit d a) -> td_fit lossfn sample gkey num_fit d a s = (r, u) ->
    match r with Ok _ => tgood (Some (s_params u, d, a)) true u | Err _ => tgood m (tafter a b) u end.
  Proof.
    intros d a m b s r u G [HH PD] H. unfold td_fit in H. unfold tafter. destruct (td_minimisation lossfn sample gkey a d s) as [[s1 h]|e] eqn:EM.
    - pose proof (tmin_spec a d s s1 h (proj1 G) EM) as HF.
      assert (A : alike s s1). { destruct (ta_minimize a); [apply HF|]. destruct HF as [-> _]. apply alike_refl, G. }
      destruct (td_fit_state gkey num_fit a d s1) as [s2|e] eqn:E.
      + assert (X : ta_history a && negb h = false).
        { destruct (ta_history a); [|reflexivity]. destruct (ta_minimize a); [|exfalso; now apply HH]. destruct HF as [_ ->]. reflexivity. }
        rewrite X in H. injection H as <- <-. eapply tfit_good; [exact PD| |exact E]. eapply tshape_alike; [apply G|exact A].
      + injection H as <- <-. destruct (ta_minimize a); [eapply tgood_weak; eauto|]. destruct HF as [-> _]. exact G.
    - injection H as <- <-. destruct (ta_minimize a); [eapply tgood_weak; [exact G|apply alike_refl, G]|exact G].
  Qed.
  Lemma tsavable : forall t d, tshape t -> save_dict t = Ok d -> savable interned (s_params t).
  Proof.
    intros t d [T1 [_ [_ [T4 _]]]] H. destruct (save_needs t d T1 H) as [A B]. split; [exact A|]. split; [|exact B].
    eapply names_def; [exact S0|apply T1| |exact NO]. now symmetry.
  Qed.
  Lemma tnone_def : forall t t' : state, state_ok t -> state_ok t' -> tree_def (s_params t) = tree_def (s_params t') -> no_none (s_params t) -> no_none (s_params t').
  Proof.
    intros t t' T T' E H1. rewrite !def_sorted in E by (apply T || apply T'). unfold no_none in *.
    assert (X : every (fun o => o <> None) (map_tree (option_map p_meta) (s_params t))).
    { apply every_map. eapply every_impl; [|exact H1]. intros [a|] Ha; [discriminate|congruence]. }
    rewrite E in X. apply (proj1 (every_map _ _ _)) in X. eapply every_impl; [|exact X]. intros [a|] Ha; [discriminate|now contradict Ha].
  Qed.
  Lemma tload_step : forall s m' b' t d, tshape s -> tgood m' b' t -> save_dict t = Ok d ->
    exists u, load_dict interned s (dumped d) = Ok u /\ tgood m' b' u /\ s_params u = s_params t.
  Proof.
    intros s m' b' t d SO [TO [K CH]] HS. pose proof (tsavable t d TO HS) as SVt.
    destruct SO as [S1 [S2 [S3 [S4 S5]]]]. destruct TO as [T1 [T2 [T3 [T4 T5]]]].
    assert (AN : Forall (fun kv => is_callable (snd kv) = false -> aux_name (fst kv)) (s_register t)).
    { apply Forall_forall. intros [k v] Hk _. cbn [fst]. apply td_aux. apply (T5 k v). apply get_in_nodup; [apply T1|exact Hk]. }
    assert (DE : tree_def (s_params t) = tree_def (s_params s)) by congruence.
    destruct (save_load interned t s) as [d' [u [HS' [HL [U1 [U2 [_ [_ [U5 U6]]]]]]]]]; auto.
    - apply same_names_def; auto; [apply T1|apply S1].
    - eapply tnone_def; [exact T1|exact S1|exact DE|apply SVt].
    - intros path p q Lp Lq. assert (E : p_meta p = p_meta q).
      { rewrite !def_sorted in DE by (apply T1 || apply S1). assert (X : lookup path (map_tree (option_map p_meta) (s_params t)) = lookup path (map_tree (option_map p_meta) (s_params s))) by now rewrite DE.
        rewrite !lookup_map, Lp, Lq in X. cbn in X. congruence. }
      rewrite <- E. destruct T1 as [[_ T1] _]. exact (every_lookup' opt_ok _ path (Some p) T1 Lp).
    - rewrite HS in HS'. injection HS' as <-. exists u. split; [exact HL|].
      assert (P : s_params u = s_params t). { eapply loaded_params; [exact T1|exact S1|exact SVt|exact AN|congruence|exact HS|exact HL]. }
      split; [|exact P]. split; [|split].
      + split; [eapply load_state_ok; [exact S1|exact HL]|]. rewrite U1, U2, P. split; [exact S2|]. split; [exact S3|]. split; [exact T4|].
        intros k v Hv. destruct (get k (s_register t)) as [w|] eqn:E.
        * destruct (T5 _ _ E) as [I1 [I2|I2]].
          -- rewrite (U5 _ _ E I2) in Hv. injection Hv as <-. auto.
          -- rewrite U6 in Hv by now rewrite E. now apply S5.
        * rewrite U6 in Hv by now rewrite E. now apply S5.
      + destruct m' as [[[p d0] a]|]; cbn [tknows] in *.
        * destruct K as [f [K1 K2]]. exists f. split; [exact K1|]. intros k v Hv. pose proof (K2 _ _ Hv) as G. apply U5; [exact G|].
          destruct (T5 _ _ G) as [_ [X|X]]; [exact X|]. exfalso. clear -Hv X. destruct d0 as [x y j dy j2 dy2]. cbn in Hv.
          repeat (destruct Hv as [Hv|Hv]; [injection Hv as <- <-; try discriminate; try (destruct j2; discriminate); destruct dy2; discriminate|]). contradiction.
        * apply U5; [exact K|exact I].
      + intro Hb. specialize (CH Hb). destruct m' as [[[p d0] a]|]; [now rewrite P|exact I].
  Qed.
  Definition tfiles_good (v : td_view) (fs : files) : Prop := forall g, match tv_files v g with
    | Some (m, b) => exists t d, tgood m b t /\ save_dict t = Ok d /\ fs g = Some (dumped d)
    | None => fs g = None end.
  Definition tworld (v : td_view) (w : state * files) : Prop := tgood (tv_fit v) (tv_fresh v) (fst w) /\ tfiles_good v (snd w).
  Notation step := (td_step lossfn sample gkey num_fit interned).
  Notation run := (td_run lossfn sample gkey num_fit interned).
  Lemma tstep_good : forall o v w r w', tworld v w -> td_call_ok o -> step o w = (r, w') -> tworld (td_observe1 v (o, r, fst w')) w'.
  Proof.
    intros o v [s fs] r w' [G F] O H. cbn [fst snd] in G, F. destruct o as [d a|f|f]; cbn [td_step] in H; cbv zeta in H; cbn [fst snd] in H.
    - destruct (td_fit lossfn sample gkey num_fit d a s) as [r0 u] eqn:E. cbn [fst snd] in H. injection H as <- <-. pose proof (tfit_step _ _ _ _ _ _ _ G O E) as X.
      destruct r0 as [[]|e]; cbn [td_observe1 fst].
      + split; [exact X|exact F].
      + unfold tafter in X. destruct (ta_minimize a); split; try exact X; exact F.
    - unfold save in H. destruct (save_dict s) as [d|e] eqn:E; injection H as <- <-; cbn [td_observe1 fst]; [|split; [exact G|exact F]].
      split; [exact G|]. intro g. cbn [tv_files snd]. destruct (String.eqb g (npz_name f)); [|apply F]. exists s, d. split; [exact G|]. split; [exact E|reflexivity].
    - unfold load in H. specialize (F f) as Ff. destruct (tv_files v f) as [[m b]|] eqn:EV.
      + destruct Ff as [t [d [Gt [HS HF]]]]. rewrite HF in H. destruct (tload_step s m b t d (proj1 G) Gt HS) as [u [E [X _]]]. rewrite E in H.
        injection H as <- <-. cbn [td_observe1 fst]. rewrite EV. cbn [fst snd]. split; [exact X|exact F].
      + rewrite Ff in H. injection H as <- <-. cbn [td_observe1 fst]. split; [exact G|exact F].
  Qed.
  Lemma trun_good : forall os v w es w', tworld v w -> Forall td_call_ok os -> run os w = (es, w') -> tworld (fold_left td_observe1 es v) w'.
  Proof.
    induction os as [|o r IH]; intros v w es w' G O H; cbn [td_run] in H; cbv zeta in H.
    - injection H as <- <-. exact G.
    - inversion O; subst. destruct (step o w) as [r0 w1] eqn:E. cbn [fst snd] in H.
      destruct (run r w1) as [es' w2] eqn:E'. cbn [fst snd] in H. injection H as <- <-. cbn [fold_left].
      eapply IH; [|exact H3|exact E']. eapply tstep_good; eauto.
  Qed.
  Lemma thistory : forall s1 os es s fs, tshape s1 -> tknows None s1 -> Forall td_call_ok os ->
    run os (s1, fun _ => None) = (es, (s, fs)) -> tworld (td_observe es) (s, fs).
  Proof.
    intros s1 os es s fs SO K O H. eapply (trun_good os td_nothing) in H; [exact H| |exact O]. split; [|intro g; reflexivity].
    split; [exact SO|]. split; [exact K|]. intros _. exact I.
  Qed.
  Lemma tanswers : forall m b s, tgood m b s -> td_serves gkey num_fit num_predict (s_kernel s0) (s_mean s0) s m.
  Proof.
    clear lossfn. intros m b s [[_ [EK _]] [K _]]. destruct m as [[[p d] a]|]; cbn [tknows td_serves] in *.
    - destruct K as [f [HF HD]]. exists f. split; [exact HF|]. intro q. unfold td_predict.
      assert (GA : forall k v, In (k, v) (td_fields d f) -> attr s k = Ok v) by (intros; apply attr_get; now apply HD).
      rewrite (GA "is_fitted" (OBool true)) by (cbn; tauto). cbn [bind truth negb]. cbn [mapM].
      rewrite (GA "x_train" (OArr (td_x d))), (GA "jacobian_train" (OArr (td_jacobian d))), (GA "jacobian_train_2" (or_none (td_jacobian_2 d))),
        (GA "c" (OArr (f "c"))), (GA "mu" (OArr (f "mu"))) by (cbn; tauto). cbn [bind]. now rewrite EK.
    - intro q. unfold td_predict. rewrite (attr_get _ _ _ K). reflexivity.
  Qed.
End Inv.
Lemma td_start : forall gkey num_fit kernel mean kp st sd sd2 l s0, td_init kernel mean kp st sd sd2 (OCall l) = Ok s0 -> state_ok s0 ->
  s_kernel s0 = kernel /\ s_mean s0 = mean /\ tshape s0 s0 /\ tknows gkey num_fit s0 None s0.
Proof.
  intros gkey num_fit kernel mean kp st sd sd2 l s0 H S. apply mk_inv in H. destruct H as [H1 [H2 H3]]. split; [auto|]. split; [auto|]. split.
  - split; [exact S|]. split; [reflexivity|]. split; [reflexivity|]. split; [reflexivity|]. rewrite H3. init_reg.
  - cbn [tknows]. rewrite H3. reflexivity.
Qed.
