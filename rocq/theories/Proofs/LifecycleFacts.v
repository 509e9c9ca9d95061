(** Invariant of the models over histories of calls. *)
From Coq Require Import String List Bool Arith Reals Lia.
From Verif Require Import Model.PyDict Model.Bijectors Model.Params Model.State Model.Optim Model.Calls Model.Lifecycle
  Spec.DictSpec Spec.StateSpec Spec.RandomSpec Spec.OptimSpec Spec.LifecycleSpec
  Proofs.DictFacts Proofs.TreeFacts Proofs.StateFacts Proofs.UpdateFacts Proofs.SaveLoad Proofs.RandomFacts
  Proofs.StatePropLemmas Proofs.OptimFacts Proofs.OptimRun Proofs.OptimSearch.
Import ListNotations.
Open Scope string_scope.
Open Scope nat_scope.

(** ** structure *)
Lemma def_sorted : forall t, sorted t -> tree_def t = map_tree (option_map p_meta) t.
Proof. intros t S. unfold tree_def. now rewrite sorted_canon. Qed.
Lemma names_map : forall {A B} (f : A -> B) interned t path, names_ok interned path (map_tree f t) <-> names_ok interned path t.
Proof.
  intros A B f interned t. induction t as [a|l IH] using tree_ind'; intro path; [reflexivity|].
  rewrite map_node, !names_node, vmap_keys, Forall_vmap. cbn [fst snd].
  apply and_iff_compat_l. rewrite !Forall_forall. rewrite Forall_forall in IH.
  split; intros H kv I; specialize (H kv I); specialize (IH kv I); destruct kv as [k [a|[|x r]]]; cbn [fst snd map_tree map] in *; try exact H.
  - destruct H as [H1 [H2 H3]]. split; [exact H1|]. split; [exact H2|]. now apply IH.
  - destruct H as [H1 [H2 H3]]. split; [exact H1|]. split; [exact H2|]. now apply IH.
Qed.
Lemma savable_def : forall interned t t', sorted t -> sorted t' -> tree_def t = tree_def t' -> savable interned t -> savable interned t'.
Proof.
  intros interned t t' S S' E [H1 [H2 [l [lk [-> G]]]]]. rewrite !def_sorted in E by auto. split; [|split].
  - unfold no_none in *. assert (X : every (fun o => o <> None) (map_tree (option_map p_meta) (Node l))).
    { apply every_map. eapply every_impl; [|exact H1]. intros [a|] Ha; [discriminate|congruence]. }
    rewrite E in X. apply (proj1 (every_map _ _ _)) in X. eapply every_impl; [|exact X]. intros [a|] Ha; [discriminate|now contradict Ha].
  - apply (names_map (option_map p_meta)). rewrite <- E. now apply names_map.
  - rewrite map_node in E. destruct t' as [o|l']; [discriminate|]. rewrite map_node in E. injection E as E. exists l'.
    assert (X : get "kernel_params" (vmap (map_tree (option_map p_meta)) l') = Some (map_tree (option_map p_meta) (Node lk))) by (rewrite <- E, get_vmap, G; reflexivity).
    rewrite get_vmap in X. destruct (get "kernel_params" l') as [[o|lk']|] eqn:G'; try discriminate. now exists lk'.
Qed.
Lemma float_def : forall t t', tree_def t = tree_def t' -> float_params t -> float_params t'.
Proof.
  intros t t' E H. apply defs_eq_metas in E. apply on_trainable_list in H. apply on_trainable_list.
  assert (X : map p_meta (trainables t) = map p_meta (trainables t')).
  { unfold trainables. rewrite !filter_map_meta. f_equal. exact E. }
  revert X H. generalize (trainables t) (trainables t'). clear. induction l as [|p r IH]; intros [|p' r'] X H; try discriminate; constructor.
  - inversion X. inversion H; subst. unfold float_meta in *. congruence.
  - inversion X. inversion H; subst. apply (IH r'); auto.
Qed.
Lemma same_names_def : forall t t', sorted t -> sorted t' -> tree_def t = tree_def t' -> same_names t t'.
Proof.
  intros t t' S S' E. rewrite !def_sorted in E by auto. unfold same_names.
  assert (X : forall t : ptree, map_tree (fun _ : option param => tt) t = map_tree (fun _ => tt) (map_tree (option_map p_meta) t)) by (intro; now rewrite map_map_tree).
  rewrite (X t), (X t'). now rewrite E.
Qed.

(** ** minimisation keeps everything but the values of the parameters *)
Definition alike (s u : state) : Prop :=
  state_ok u /\ s_kernel u = s_kernel s /\ s_mean u = s_mean s /\ s_register u = s_register s /\ tree_def (s_params u) = tree_def (s_params s).
Lemma alike_refl : forall s, state_ok s -> alike s s.
Proof. intros s S. split; [exact S|]. now repeat split. Qed.
Lemma alike_trans : forall a b c, alike a b -> alike b c -> alike a c.
Proof. intros a b c [A1 [A2 [A3 [A4 A5]]]] [B1 [B2 [B3 [B4 B5]]]]. split; [exact B1|]. repeat split; congruence. Qed.
Lemma forward_alike : forall w s x s', state_ok w -> state_ok s -> tree_def (s_params w) = tree_def (s_params s) ->
  bind (unravel_forward (s_params w) x) (with_params s) = Ok s' -> alike s s'.
Proof.
  intros w s x s' W S E H. apply bind_ok in H. destruct H as [p [H1 H2]].
  destruct (unravel_inv (s_params w) x p) as [xs [_ [T [St [D _]]]]]; auto; try apply W.
  rewrite with_params_ok in H2 by auto. injection H2 as <-. split.
  - unfold state_ok in *. cbn [s_kernel s_mean s_params s_register]. tauto.
  - cbn [s_kernel s_mean s_params s_register]. repeat split. congruence.
Qed.
Lemma scipy_alike : forall A (loss : array -> state -> result A) m s s', state_ok s -> fst (scipy_minimize loss m s) = Ok s' -> alike s s'.
Proof.
  intros A loss m s s' S H. unfold scipy_minimize in H. cbn [fst] in H. apply bind_ok in H. destruct H as [x [_ H]]. now apply (forward_alike s s x).
Qed.
Lemma nlopt_alike : forall A w (loss : array -> state -> result A) m s s', state_ok w -> state_ok s -> tree_def (s_params w) = tree_def (s_params s) ->
  fst (nlopt_optimize w loss m s) = Ok s' -> alike s s'.
Proof.
  intros A w loss m s s' W S E H. unfold nlopt_optimize in H. cbn [fst] in H. apply bind_ok in H. destruct H as [x [_ H]]. now apply (forward_alike w s x).
Qed.
Lemma merge_nil : forall {A} (d : dict A), merge d [] = d.
Proof. reflexivity. Qed.
Lemma norm_register : forall s, state_ok s -> norm (s_register s) = s_register s.
Proof.
  intros s [_ [_ [_ [F _]]]]. unfold norm. induction F as [|[k v] r [_ H] F IH]; [reflexivity|]. cbn [vmap map fst snd] in *. f_equal; [|exact IH].
  f_equal. now apply as_attr_id.
Qed.
Lemma randomize_alike : forall sample s k s', state_ok s -> sampler_ok sample -> float_params (s_params s) -> randomize sample s k [] = Ok s' -> alike s s'.
Proof.
  intros sample s k s' S P F H. destruct (randomize_ok sample s k [] S P F) as [u [H1 [H2 [H3 [H4 [H5 [H6 [H7 H8]]]]]]]].
  - split; constructor.
  - reflexivity.
  - rewrite H1 in H. injection H as <-. split; [apply (sstep_ok (fun _ => true) sample (SRandomize k []) s u S); [split; constructor|exact H1]|].
    cbn [pick get] in *. repeat split; auto. rewrite H4. change (rest_of []) with (@nil (string * obj)). rewrite merge_nil. now apply norm_register.
Qed.
Lemma search_alike : forall {I} sample (minimize : state -> result (state * I)) loss k n s s' i l l', state_ok s -> sampler_ok sample ->
  float_params (s_params s) -> (forall u v j, alike s u -> minimize u = Ok (v, j) -> alike s v) ->
  randomized_minimization sample minimize loss k n s = Ok (s', i, l, l') -> alike s s'.
Proof.
  intros I sample minimize loss k n s s' i l l' S P F M H. destruct (restarts_run _ _ _ _ _ _ _ _ _ _ H) as [L [_ [_ [[i0 [s0 [H0 N0]]] [HR [j [HJ _]]]]]]].
  revert HJ. generalize j as j0. clear j. intros j0 HJ. assert (X : forall j u, nth_error l j = Some u -> alike s u).
  { induction j as [|j IH]; intros u Hu.
    - assert (u = s0) by congruence. subst u. eapply M; [|exact H0]. now apply alike_refl.
    - assert (J : j < n). { assert (Datatypes.S j < List.length l) by (apply nth_error_Some; congruence). lia. }
      destruct (HR j J) as [a [b [s1 [i1 [k0 [_ [Ha [Hb [R1 R2]]]]]]]]]. rewrite Hb in Hu. injection Hu as <-. specialize (IH _ Ha).
      eapply M; [|exact R2]. eapply alike_trans; [exact IH|]. eapply randomize_alike; [apply IH|exact P| |exact R1].
      eapply float_def; [|exact F]. symmetry. apply IH. }
  eapply X; exact HJ.
Qed.

(** ** loading a saved model *)
Lemma loaded_params : forall interned s t d t', state_ok s -> state_ok t -> savable interned (s_params s) ->
  Forall (fun kv => is_callable (snd kv) = false -> aux_name (fst kv)) (s_register s) ->
  tree_def (s_params t) = tree_def (s_params s) ->
  save_dict s = Ok d -> load_dict interned t (dumped d) = Ok t' -> s_params t' = s_params s.
Proof.
  intros interned s t d t' S T SV AN E HS HL.
  destruct (unflatten_saved interned s S SV AN) as [l [lk [El [HK [_ [d' [HS' HU]]]]]]]. rewrite HS in HS'. injection HS' as <-.
  destruct (load_inv interned t (dumped d) t' T HL) as [dd [dp [vs [U [G [TL [_ [V D]]]]]]]].
  rewrite HU in U. injection U as <-. cbn [get] in G. injection G as <-.
  rewrite (saved_leaves interned s S SV l lk El HK) in TL.
  assert (VS : vs = tree_values (s_params s)). { clear -TL. revert TL. generalize (tree_values (s_params s)). induction vs as [|v r IH]; intros [|w r'] H; try discriminate; auto. inversion H. f_equal. auto. }
  subst vs. apply ptree_eq; [|apply S|congruence|exact VS]. apply (load_state_ok interned t (dumped d) t' T HL).
Qed.

(** ** updating attributes *)
Lemma del_out : forall {A} k (d : dict A), ~ In k (map fst d) -> del k d = d.
Proof.
  intros A k d. induction d as [|[k' v] r IH]; intro H; [reflexivity|]. rewrite del_cons. simpl in H. destruct (String.eqb_spec k k'); [subst; tauto|]. f_equal. apply IH. tauto.
Qed.
Lemma update_attrs : forall s D, state_ok s -> NoDup (map fst D) -> (forall k, In k (map fst D) -> ~ reserved k) ->
  fst (state_update s D) = Ok (State (s_kernel s) (s_mean s) (s_params s) (norm (merge (s_register s) D))).
Proof.
  intros s D S N R. rewrite update_eq. assert (G : forall k, reserved k -> ~ In k (map fst D)) by (intros k H I; exact (R k I H)).
  unfold pick. rewrite !(proj2 (get_none _ D)) by (apply G; unfold reserved; tauto). rewrite set_own_params by auto. cbn [bind].
  unfold rest_of. rewrite (del_out "kernel") by (apply G; unfold reserved; tauto). rewrite (del_out "mean_function") by (apply G; unfold reserved; tauto).
  rewrite (del_out "params") by (apply G; unfold reserved; tauto). reflexivity.
Qed.
Lemma get_updated : forall k D s, NoDup (map fst D) -> state_ok s ->
  get k (norm (merge (s_register s) D)) = match get k D with Some v => Some (as_attr v) | None => get k (s_register s) end.
Proof.
  intros k D s N S. unfold norm. rewrite get_vmap, get_merge by auto. destruct (get k D) as [v|]; [reflexivity|].
  rewrite <- (norm_register s S) at 2. unfold norm. now rewrite get_vmap.
Qed.

Section Inv.
  Context (N : numerics) (C : gp_class) (s0 : state) (extra fields : task -> list string) (names consts : list string).
  Definition flag_names : list string := ["is_fitted"; "is_fitted_derivs"].
  (** what is used of a class *)
  Record class_ok : Prop := {
    co_fit : forall t g b, k_fit C t = Some (g, b) -> b = fit_fun (n_fit N t) (extra t) (fields t);
    co_nodup : forall d, NoDup (map fst (data_fields d) ++ fields (task_of d) ++ flag_names);
    co_names : forall d k, In k (map fst (data_fields d) ++ fields (task_of d) ++ flag_names) -> In k names;
    co_aux : forall k, In k names -> aux_name k;
    co_consts : forall d k, In k (map fst (data_fields d) ++ fields (task_of d) ++ flag_names) -> ~ In k consts;
    co_extra : forall t k, In k (extra t) -> In k consts;
    co_reset_nodup : NoDup (map fst (k_reset C));
    co_reset_names : forall k, In k (map fst (k_reset C)) -> In k names /\ ~ In k consts;
    co_reset_store : forall k v, get k (k_reset C) = Some v -> storable v;
    co_reset_flags : get "is_fitted" (k_reset C) = Some (OBool false) /\ get "is_fitted_derivs" (k_reset C) = Some (OBool false) }.
  Definition knows (m : mode) (s : state) : Prop :=
    match m with
    | Unfitted => get "is_fitted" (s_register s) = Some (OBool false) /\ get "is_fitted_derivs" (s_register s) = Some (OBool false)
    | Fitted (Trained p d o) => exists vs f, mapM (attr s0) (extra (task_of d)) = Ok vs /\
        n_fit N (task_of d) p (s_kernel s0) (s_mean s0) vs d o = Ok f /\
        (forall k v, In (k, v) (data_fields d) -> get k (s_register s) = Some v) /\
        (forall k, In k (fields (task_of d)) -> get k (s_register s) = Some (OArr (f k))) /\
        let fitted := match d with Derivs _ _ _ => false | _ => true end in
        get "is_fitted" (s_register s) = Some (OBool fitted) /\ get "is_fitted_derivs" (s_register s) = Some (OBool (negb fitted))
    end.
  Definition shape_ok (s : state) : Prop :=
    state_ok s /\ s_kernel s = s_kernel s0 /\ s_mean s = s_mean s0 /\ tree_def (s_params s) = tree_def (s_params s0) /\
    (forall k v, get k (s_register s) = Some v -> In k names /\ (storable v \/ is_callable v = true)) /\
    (forall k, In k consts -> get k (s_register s) = get k (s_register s0)).
  Definition coherent (m : mode) (b : bool) (s : state) : Prop :=
    b = true -> match m with Fitted t => t_params t = s_params s | Unfitted => True end.
  (** only the fits of the class have been made *)
  Definition possible (m : mode) : Prop := match m with Fitted t => k_fit C (task_of (t_data t)) <> None | Unfitted => True end.
  Definition good (m : mode) (b : bool) (s : state) : Prop := shape_ok s /\ knows m s /\ coherent m b s /\ possible m.

  Lemma storable_attr : forall v, storable v -> as_attr v = v.
  Proof. exact storable_not_raw. Qed.
  Lemma shape_alike : forall s u, shape_ok s -> alike s u -> shape_ok u.
  Proof.
    intros s u [H1 [H2 [H3 [H4 [H5 H6]]]]] [A1 [A2 [A3 [A4 A5]]]]. split; [exact A1|]. rewrite A2, A3, A4, A5. tauto.
  Qed.
  Lemma knows_alike : forall m s u, knows m s -> s_register u = s_register s -> knows m u.
  Proof. intros m s u H E. unfold knows in *. rewrite E. exact H. Qed.

  Lemma shape_update : forall s D, class_ok -> shape_ok s -> NoDup (map fst D) -> (forall k, In k (map fst D) -> In k names /\ ~ In k consts) ->
    (forall k v, get k D = Some v -> storable v) ->
    exists u, fst (state_update s D) = Ok u /\ shape_ok u /\ s_params u = s_params s /\
      forall k, get k (s_register u) = match get k D with Some v => Some v | None => get k (s_register s) end.
  Proof.
    intros s D CO [H1 [H2 [H3 [H4 [H5 H6]]]]] ND HD HS.
    assert (R : forall k, In k (map fst D) -> ~ reserved k). { intros k Hk. destruct (co_aux CO k) as [_ [_ [_ X]]]; [apply HD; auto|exact X]. }
    assert (G : forall k, get k (norm (merge (s_register s) D)) = match get k D with Some v => Some v | None => get k (s_register s) end).
    { intro k. rewrite get_updated by auto. destruct (get k D) as [v|] eqn:E; [|reflexivity]. f_equal. apply storable_attr. eapply HS; eauto. }
    pose proof (update_attrs s D H1 ND R) as U. eexists. split; [exact U|]. split; [|split; [reflexivity|exact G]].
    split.
    - eapply state_update_ok; [exact H1| |exact U]. apply Forall_forall. intros [k v] I. cbn [snd].
      assert (X : storable v) by (apply (HS k); now apply get_in_nodup). destruct v; try exact Logic.I; destruct X.
    - cbn [s_kernel s_mean s_params s_register]. split; [exact H2|]. split; [exact H3|]. split; [exact H4|]. split.
      + intros k v Hv. rewrite G in Hv. destruct (get k D) as [v'|] eqn:E; [|now apply H5]. injection Hv as <-. split; [|left; eapply HS; eauto].
        apply HD. apply get_in in E. now apply (in_map fst) in E.
      + intros k Hk. rewrite G. destruct (get k D) as [v'|] eqn:E; [|now apply H6]. exfalso. apply get_in in E. apply (in_map fst) in E. now apply (HD k).
  Qed.
  Lemma fields_keys : forall (f : string -> array) l, map fst (map (fun k => (k, OArr (f k))) l) = l.
  Proof. intros. rewrite map_map. apply map_id. Qed.
  Definition plain_obj (f : string -> array) : Prop := forall k, plain (f k).
  Lemma data_storable : forall d k v, plain_data d -> In (k, v) (data_fields d) -> storable v.
  Proof. intros [] k v P H; cbn in H, P; repeat (destruct H as [H|H]; [injection H as <- <-; unfold plain in *; tauto|]); contradiction. Qed.
  Lemma fit_good : forall t g b d o s u, class_ok -> plain_numerics N -> plain_data d -> shape_ok s -> task_of d = t -> k_fit C t = Some (g, b) ->
    b d o s = Ok u -> good (Fitted (Trained (s_params u) d o)) true u.
  Proof.
    intros t g b d o s u CO PN PD SO <- HK H. rewrite (co_fit CO _ _ _ HK) in H. unfold fit_fun in H. apply bind_ok in H. destruct H as [vs [E H]].
    apply bind_ok in H. destruct H as [f [HF H]]. cbv zeta in H. set (fitted := match d with Derivs _ _ _ => false | _ => true end) in *.
    match type of H with fst (state_update s ?D) = _ => set (D0 := D) in * end.
    assert (KD : map fst D0 = (map fst (data_fields d) ++ fields (task_of d) ++ flag_names)%list).
    { unfold D0. rewrite !map_app, fields_keys. reflexivity. }
    assert (ND : NoDup (map fst D0)) by (rewrite KD; apply (co_nodup CO)).
    assert (ST : forall k v, In (k, v) D0 -> storable v).
    { intros k v Hv. unfold D0 in Hv. rewrite !in_app_iff in Hv. destruct Hv as [Hv|[Hv|Hv]].
      - eapply data_storable; eauto.
      - apply in_map_iff in Hv. destruct Hv as [k' [Hv _]]. injection Hv as <- <-. eapply PN; eauto.
      - destruct Hv as [Hv|[Hv|[]]]; injection Hv as <- <-; exact I. }
    destruct (shape_update s D0 CO SO ND) as [u' [U1 [U2 [U3 U4]]]].
    - intros k Hk. rewrite KD in Hk. split; [eapply co_names; eauto|eapply co_consts; eauto].
    - intros k v Hv. apply (ST k). now apply get_in.
    - rewrite U1 in H. injection H as <-. split; [exact U2|]. split; [|split; [intros _; reflexivity|cbn; rewrite HK; discriminate]].
      assert (G : forall k v, In (k, v) D0 -> get k (s_register u') = Some v).
      { intros k v Hv. rewrite U4. apply get_in_nodup in Hv; [|exact ND]. now rewrite Hv. }
      cbn [knows]. exists vs, f. destruct SO as [S1 [S2 [S3 [S4 [S5 S6]]]]]. split; [|split; [|split; [|split]]].
      + rewrite <- E. clear -CO S6. assert (X : forall k, In k (extra (task_of d)) -> attr s0 k = attr s k).
        { intros k Hk. unfold attr. rewrite S6; [reflexivity|]. eapply co_extra; eauto. }
        induction (extra (task_of d)) as [|k r IH]; [reflexivity|]. cbn [mapM]. rewrite (X k) by now left. rewrite IH; [reflexivity|]. intros. apply X. now right.
      + rewrite <- S2, <- S3, U3. exact HF.
      + intros k v Hv. apply G. unfold D0. apply in_app_iff. now left.
      + intros k Hk. apply G. unfold D0. rewrite !in_app_iff. right. left. apply in_map_iff. now exists k.
      + fold fitted. split; apply G; unfold D0; rewrite !in_app_iff; right; right; [left|right; left]; reflexivity.
  Qed.

  Lemma good_weak : forall m b s u, good m b s -> alike s u -> good m false u.
  Proof.
    intros m b s u [H1 [H2 [_ H3]]] A. split; [eapply shape_alike; eauto|]. split; [|split; [discriminate|exact H3]]. eapply knows_alike; [exact H2|apply A].
  Qed.

  Section Steps.
    Variable lossfn : obj -> option (sig * (data -> dict obj -> state -> result (num * array))).
    Variable sample : key -> prior_obj -> array.
    Variable key_precond : obj.
    Variable interned : string -> bool.
    Hypothesis CO : class_ok.
    Hypothesis PN : plain_numerics N.
    Hypothesis SA : sampler_ok sample.
    Hypothesis FP : float_params (s_params s0).
    Hypothesis S0 : sorted (s_params s0).
    Hypothesis SV : savable interned (s_params s0).

    Lemma shape_float : forall s, shape_ok s -> float_params (s_params s).
    Proof. intros s H. eapply float_def; [|exact FP]. symmetry. apply H. Qed.
    Lemma minimisation_spec : forall a minimise d kw s u h, shape_ok s ->
      (forall loss strat v v', shape_ok v -> fst (minimise loss strat v) = Ok v' -> alike v v') ->
      minimisation lossfn sample a minimise d kw s = Ok (u, h) ->
      match a_minimize a with None => u = s /\ h = false | Some _ => alike s u /\ h = true end.
    Proof.
      intros a minimise d kw s u h SO HM H. unfold minimisation in H. apply bind_ok in H. destruct H as [lf [_ H]].
      destruct (lossfn lf) as [f|]; [|discriminate]. destruct (a_minimize a) as [strat|]; [|injection H as <- <-; auto].
      apply bind_ok in H. destruct H as [[[[s' i] l] l'] [H E]]. cbn [fst] in E. injection E as <- <-. split; [|reflexivity].
      eapply search_alike; [apply SO|exact SA|now apply shape_float| |exact H].
      intros v v' j Av Hv. apply bind_ok in Hv. destruct Hv as [w [Hw E]]. injection E as -> _.
      eapply alike_trans; [exact Av|]. eapply HM; [|exact Hw]. eapply shape_alike; eauto.
    Qed.
    Definition after (a : fit_args) (b : bool) : bool := match a_minimize a with Some _ => false | None => b end.
    Lemma finish_good : forall a m b s found fit d o u r, good m b s -> (a_history a = true -> a_minimize a <> None) ->
      (forall u h, found = Ok (u, h) -> match a_minimize a with None => u = s /\ h = false | Some _ => alike s u /\ h = true end) ->
      (forall v v', shape_ok v -> fit v = Ok v' -> good (Fitted (Trained (s_params v') d o)) true v') ->
      finish a s found fit = (r, u) ->
      match r with Ok _ => good (Fitted (Trained (s_params u) d o)) true u | Err _ => good m (after a b) u end.
    Proof.
      intros a m b s found fit d o u r G HH HF HFit H. unfold finish in H. unfold after. destruct found as [[s1 h]|e].
      - specialize (HF s1 h eq_refl). assert (A : alike s s1). { destruct (a_minimize a); [apply HF|]. destruct HF as [-> _]. apply alike_refl, G. }
        destruct (fit s1) as [s2|e] eqn:E.
        + assert (X : a_history a && negb h = false).
          { destruct (a_history a); [|reflexivity]. destruct (a_minimize a); [|exfalso; now apply HH]. destruct HF as [_ ->]. reflexivity. }
          rewrite X in H. injection H as <- <-. eapply HFit; [|exact E]. eapply shape_alike; [apply G|exact A].
        + injection H as <- <-. destruct (a_minimize a); [eapply good_weak; eauto|]. destruct HF as [-> _]. exact G.
      - injection H as <- <-. destruct (a_minimize a); [eapply good_weak; [exact G|apply alike_refl, G]|exact G].
    Qed.
    Lemma call_fit : forall t npos kw d o v v', plain_data d -> task_of d = t -> shape_ok v ->
      call_attr (k_fit C t) npos kw (fun b => b d o v) = Ok v' -> good (Fitted (Trained (s_params v') d o)) true v'.
    Proof.
      intros t npos kw d o v v' PD T SO H. unfold call_attr in H. destruct (k_fit C t) as [[g b]|] eqn:K; [|discriminate].
      unfold call in H. destruct (accepts g npos kw); [|discriminate]. eapply fit_good; eauto.
    Qed.
    Lemma fit_step : forall d a m b s r u, good m b s -> call_ok (s_params s0) (Fit d a) -> base_fit lossfn sample key_precond C d a s = (r, u) ->
      match r with Ok _ => good (Fitted (Trained (s_params u) d (a_options a))) true u | Err _ => good m (after a b) u end.
    Proof.
      intros d a m b s r u G [HH PD] H. unfold base_fit in H. cbv zeta in H. eapply finish_good; [exact G|exact HH| | |exact H].
      - intros u' h HF. assert (M : forall kw, minimisation lossfn sample a scipy_minimize d kw s = Ok (u', h) ->
          match a_minimize a with None => u' = s /\ h = false | Some _ => alike s u' /\ h = true end).
        { intros kw HM. eapply minimisation_spec; [apply G| |exact HM]. intros loss strat v v' SO Hv. eapply scipy_alike; [apply SO|exact Hv]. }
        destruct d; [eapply M; exact HF|eapply M; exact HF|]. destruct (a_minimize a) as [st|] eqn:E; [eapply M; exact HF|]. injection HF as <- <-. auto.
      - intros v v' SO Hv. eapply call_fit; [exact PD|reflexivity|exact SO|exact Hv].
    Qed.
    Lemma nlopt_step : forall x y w a m b s r u, good m b s -> call_ok (s_params s0) (FitNlopt x y w a) ->
      base_fit_nlopt lossfn sample C x y w a s = (r, u) ->
      match r with Ok _ => good (Fitted (Trained (s_params u) (Targets x y) (Options (o_iterative (a_options a)) ONone))) true u | Err _ => good m (after a b) u end.
    Proof.
      intros x y w a m b s r u G [HH [PX [PY [W E]]]] H. unfold base_fit_nlopt in H. eapply finish_good; [exact G|exact HH| | |exact H].
      - intros u' h HF. eapply minimisation_spec; [apply G| |exact HF]. intros loss strat v v' SO Hv.
        eapply nlopt_alike; [exact W|apply SO| |exact Hv]. rewrite E. symmetry. apply SO.
      - intros v v' SO Hv. eapply call_fit; [|reflexivity|exact SO|exact Hv]. now split.
    Qed.
    Lemma reset_dict_ok : dict_ok (k_reset C).
    Proof.
      split; [apply CO|]. apply Forall_forall. intros [k v] I. cbn [snd]. apply get_in_nodup in I; [|apply CO]. apply (co_reset_store CO) in I. destruct v; try exact Logic.I; destruct I.
    Qed.
    Lemma randomize_step : forall k reset m b s u, good m b s -> base_randomize sample C k reset s = Ok u ->
      good (if reset then Unfitted else m) reset u.
    Proof.
      intros k reset m b s u G H. unfold base_randomize in H. destruct reset.
      - destruct G as [SO [_ _]]. pose proof SO as [S1 [S2 [S3 [S4 [S5 S6]]]]].
        assert (RV : forall k, In k (map fst (k_reset C)) -> ~ reserved k). { intros k' Hk. destruct (co_aux CO k') as [_ [_ [_ X]]]; [now apply (co_reset_names CO)|exact X]. }
        assert (NP : get "params" (k_reset C) = None). { apply get_none. intro X. apply (RV _ X). unfold reserved. tauto. }
        destruct (randomize_ok sample s k (k_reset C) S1 SA (shape_float s SO) reset_dict_ok NP) as [u' [E1 [E2 [E3 [E4 [_ [_ [E7 _]]]]]]]].
        rewrite E1 in H. injection H as <-.
        assert (NK : pick "kernel" (k_reset C) (s_kernel s) = s_kernel s). { unfold pick. rewrite (proj2 (get_none _ _)); [reflexivity|]. intro X. apply (RV _ X). unfold reserved. tauto. }
        assert (NM : pick "mean_function" (k_reset C) (s_mean s) = s_mean s). { unfold pick. rewrite (proj2 (get_none _ _)); [reflexivity|]. intro X. apply (RV _ X). unfold reserved. tauto. }
        assert (RD : rest_of (k_reset C) = k_reset C).
        { unfold rest_of. rewrite (del_out "kernel") by (intro X; apply (RV _ X); unfold reserved; tauto).
          rewrite (del_out "mean_function") by (intro X; apply (RV _ X); unfold reserved; tauto). apply del_out. intro X; apply (RV _ X); unfold reserved; tauto. }
        assert (GU : forall a, get a (s_register u') = match get a (k_reset C) with Some v => Some v | None => get a (s_register s) end).
        { intro a. rewrite E4, RD, get_updated by (auto; apply CO). destruct (get a (k_reset C)) as [v|] eqn:EV; [|reflexivity]. f_equal. apply storable_attr. eapply co_reset_store; eauto. }
        split; [|split; [|split; [intros _; exact I|exact I]]].
        + split; [exact (sstep_ok (fun _ => true) sample (SRandomize k (k_reset C)) s u' S1 reset_dict_ok E1)|]. rewrite E2, E3, E7, NK, NM.
          split; [exact S2|]. split; [exact S3|]. split; [exact S4|]. split.
          * intros a v Hv. rewrite GU in Hv. destruct (get a (k_reset C)) as [v'|] eqn:EV; [|now apply S5]. injection Hv as <-.
            split; [|left; eapply co_reset_store; eauto]. apply (co_reset_names CO). apply get_in in EV. now apply (in_map fst) in EV.
          * intros a Ha. rewrite GU. destruct (get a (k_reset C)) as [v'|] eqn:EV; [|now apply S6]. exfalso. apply get_in in EV. apply (in_map fst) in EV. now apply (co_reset_names CO a).
        + cbn [knows]. rewrite !GU. destruct (co_reset_flags CO) as [-> ->]. auto.
      - eapply good_weak; [exact G|]. eapply randomize_alike; [apply G|exact SA|apply shape_float, G|exact H].
    Qed.
    Lemma load_step : forall m b m' b' s t d u, good m b s -> good m' b' t -> save_dict t = Ok d -> load_dict interned s (dumped d) = Ok u -> good m' b' u.
    Proof.
      intros m b m' b' s t d u [[S1 [S2 [S3 [S4 [S5 S6]]]]] _] [[T1 [T2 [T3 [T4 [T5 T6]]]]] [K [CH PO]]] HS HL.
      assert (SVt : savable interned (s_params t)). { eapply savable_def; [exact S0|apply T1| |exact SV]. now symmetry. }
      assert (AN : Forall (fun kv => is_callable (snd kv) = false -> aux_name (fst kv)) (s_register t)).
      { apply Forall_forall. intros [k v] Hk _. cbn [fst]. apply (co_aux CO). apply (T5 k v). apply get_in_nodup; [apply T1|exact Hk]. }
      assert (P : s_params u = s_params t). { eapply loaded_params; [exact T1|exact S1|exact SVt|exact AN|congruence|exact HS|exact HL]. }
      assert (DE : tree_def (s_params t) = tree_def (s_params s)) by congruence.
      destruct (save_load interned t s) as [d' [u' [HS' [HL' [U1 [U2 [_ [_ [U5 U6]]]]]]]]]; auto.
      - apply same_names_def; auto; [apply T1|apply S1].
      - assert (SVs : savable interned (s_params s)). { eapply savable_def; [exact S0|apply S1| |exact SV]. now symmetry. } apply SVs.
      - intros path p q Lp Lq. assert (E : p_meta p = p_meta q).
        { rewrite !def_sorted in DE by (apply T1 || apply S1). assert (X : lookup path (map_tree (option_map p_meta) (s_params t)) = lookup path (map_tree (option_map p_meta) (s_params s))) by now rewrite DE.
          rewrite !lookup_map, Lp, Lq in X. cbn in X. congruence. }
        rewrite <- E. destruct T1 as [[_ T1] _]. exact (every_lookup' opt_ok _ path (Some p) T1 Lp).
      - rewrite HS in HS'. injection HS' as <-. rewrite HL in HL'. injection HL' as <-.
        assert (G : forall k v, get k (s_register t) = Some v -> storable v -> get k (s_register u) = Some v) by exact U5.
        split; [|split; [|split; [|exact PO]]].
        + split; [eapply load_state_ok; [exact S1|exact HL]|]. rewrite U1, U2, P. split; [exact S2|]. split; [exact S3|]. split; [exact T4|]. split.
          * intros k v Hv. destruct (get k (s_register t)) as [w|] eqn:E.
            -- destruct (T5 _ _ E) as [I1 [I2|I2]].
               ++ rewrite (G _ _ E I2) in Hv. injection Hv as <-. auto.
               ++ rewrite U6 in Hv by now rewrite E. now apply S5.
            -- rewrite U6 in Hv by now rewrite E. now apply S5.
          * intros k Hk. destruct (get k (s_register t)) as [w|] eqn:E.
            -- destruct (T5 _ _ E) as [I1 [I2|I2]].
               ++ rewrite (G _ _ E I2), <- E. now apply T6.
               ++ rewrite U6 by now rewrite E. now apply S6.
            -- rewrite U6 by now rewrite E. now apply S6.
        + assert (GS : forall k v, get k (s_register t) = Some v -> storable v -> get k (s_register u) = Some v) by exact G.
          destruct m' as [|[p d0 o]]; cbn [knows] in *.
          * destruct K as [K1 K2]. split; apply GS; auto; exact I.
          * destruct K as [vs [f [K1 [K2 [K3 [K4 [K5 K6]]]]]]]. exists vs, f. split; [exact K1|]. split; [exact K2|]. split; [|split; [|split]].
            -- intros k v Hv. apply GS; [now apply K3|]. specialize (K3 _ _ Hv). destruct (T5 _ _ K3) as [_ [X|X]]; [exact X|].
               destruct d0; cbn in Hv; repeat (destruct Hv as [Hv|Hv]; [injection Hv as <- <-; discriminate|]); contradiction.
            -- intros k Hk. apply GS; [now apply K4|]. destruct (T5 _ _ (K4 _ Hk)) as [_ [X|X]]; [exact X|discriminate].
            -- apply GS; auto; exact I.
            -- apply GS; auto; exact I.
        + intro Hb. specialize (CH Hb). destruct m'; [exact I|]. now rewrite P.
    Qed.

    Lemma load_again : forall m b m' b' s t, good m b s -> good m' b' t ->
      exists d u, save_dict t = Ok d /\ load_dict interned s (dumped d) = Ok u /\ good m' b' u /\ s_params u = s_params t.
    Proof.
      intros m b m' b' s t GS GT. pose proof GS as [[S1 [S2 [S3 [S4 [S5 S6]]]]] _]. pose proof GT as [[T1 [T2 [T3 [T4 [T5 T6]]]]] _].
      assert (SVt : savable interned (s_params t)). { eapply savable_def; [exact S0|apply T1| |exact SV]. now symmetry. }
      assert (AN : Forall (fun kv => is_callable (snd kv) = false -> aux_name (fst kv)) (s_register t)).
      { apply Forall_forall. intros [k v] Hk _. cbn [fst]. apply (co_aux CO). apply (T5 k v). apply get_in_nodup; [apply T1|exact Hk]. }
      assert (DE : tree_def (s_params t) = tree_def (s_params s)) by congruence.
      destruct (save_load interned t s) as [d [u [HS [HL _]]]]; auto.
      - apply same_names_def; auto; [apply T1|apply S1].
      - assert (SVs : savable interned (s_params s)). { eapply savable_def; [exact S0|apply S1| |exact SV]. now symmetry. } apply SVs.
      - intros path p q Lp Lq. assert (E : p_meta p = p_meta q).
        { rewrite !def_sorted in DE by (apply T1 || apply S1). assert (X : lookup path (map_tree (option_map p_meta) (s_params t)) = lookup path (map_tree (option_map p_meta) (s_params s))) by now rewrite DE.
          rewrite !lookup_map, Lp, Lq in X. cbn in X. congruence. }
        rewrite <- E. destruct T1 as [[_ T1] _]. exact (every_lookup' opt_ok _ path (Some p) T1 Lp).
      - exists d, u. split; [exact HS|]. split; [exact HL|]. split; [eapply load_step; [exact GS|exact GT|exact HS|exact HL]|].
        eapply loaded_params; [exact T1|exact S1|exact SVt|exact AN|congruence|exact HS|exact HL].
    Qed.

    (** ** histories *)
    Definition files_good (v : view) (fs : files) : Prop := forall g, match v_files v g with
      | Some (m, b) => exists t d, good m b t /\ save_dict t = Ok d /\ fs g = Some (dumped d)
      | None => fs g = None end.
    Definition world_good (v : view) (w : state * files) : Prop := good (v_mode v) (v_fresh v) (fst w) /\ files_good v (snd w).
    Lemma step_good : forall o v w r w', world_good v w -> call_ok (s_params s0) o -> step lossfn sample key_precond interned C o w = (r, w') ->
      world_good (observe1 v (o, r, fst w')) w'.
    Proof.
      intros o v [s fs] r w' [G F] O H. cbn [fst snd] in G, F. destruct o as [d a|x y w a|k reset|f|f|fresh]; cbn [step] in H; cbv zeta in H; cbn [fst snd] in H.
      - destruct (base_fit lossfn sample key_precond C d a s) as [r0 u] eqn:E. cbn [fst snd] in H. injection H as <- <-. pose proof (fit_step _ _ _ _ _ _ _ G O E) as X.
        destruct r0 as [[]|e]; cbn [observe1 fst].
        + split; [exact X|exact F].
        + unfold after in X. destruct (a_minimize a); split; try exact X; exact F.
      - destruct (base_fit_nlopt lossfn sample C x y w a s) as [r0 u] eqn:E. cbn [fst snd] in H. injection H as <- <-. pose proof (nlopt_step _ _ _ _ _ _ _ _ _ G O E) as X.
        destruct r0 as [[]|e]; cbn [observe1 fst].
        + split; [exact X|exact F].
        + unfold after in X. destruct (a_minimize a); split; try exact X; exact F.
      - destruct (base_randomize sample C k reset s) as [u|e] eqn:E; injection H as <- <-; cbn [observe1 fst].
        + pose proof (randomize_step _ _ _ _ _ _ G E) as X. destruct reset; split; try exact X; exact F.
        + destruct reset; split; try exact G; exact F.
      - unfold save in H. destruct (save_dict s) as [d|e] eqn:E; injection H as <- <-; cbn [observe1 fst]; [|split; [exact G|exact F]].
        split; [exact G|]. intro g. cbn [v_files snd]. destruct (String.eqb g (npz_name f)); [|apply F]. exists s, d. split; [exact G|]. split; [exact E|reflexivity].
      - unfold load in H. specialize (F f) as Ff. destruct (v_files v f) as [[m b]|] eqn:EV.
        + destruct Ff as [t [d [Gt [HS HF]]]]. rewrite HF in H. destruct (load_dict interned s (dumped d)) as [u|e] eqn:E; injection H as <- <-; cbn [observe1 fst].
          * rewrite EV. cbn [fst snd]. split; [eapply load_step; [exact G|exact Gt|exact HS|exact E]|exact F].
          * split; [exact G|exact F].
        + rewrite Ff in H. injection H as <- <-. cbn [observe1 fst]. split; [exact G|exact F].
      - injection H as <- <-. cbn [observe1 fst]. destruct fresh; split; try exact G; exact F.
    Qed.
    Lemma run_good : forall os v w es w', world_good v w -> Forall (call_ok (s_params s0)) os ->
      run lossfn sample key_precond interned C os w = (es, w') -> world_good (fold_left observe1 es v) w'.
    Proof.
      induction os as [|o r IH]; intros v w es w' G O H; cbn [run] in H; cbv zeta in H.
      - injection H as <- <-. exact G.
      - inversion O; subst. destruct (step lossfn sample key_precond interned C o w) as [r0 w1] eqn:E. cbn [fst snd] in H.
        destruct (run lossfn sample key_precond interned C r w1) as [es' w2] eqn:E'. cbn [fst snd] in H. injection H as <- <-. cbn [fold_left].
        eapply IH; [|exact H3|exact E']. eapply step_good; eauto.
    Qed.
    (** the model may start from other values *)
    Lemma history_good_from : forall s1 os es s fs, shape_ok s1 -> knows Unfitted s1 -> Forall (call_ok (s_params s0)) os ->
      run lossfn sample key_precond interned C os (s1, fun _ => None) = (es, (s, fs)) -> good (v_mode (observe es)) (v_fresh (observe es)) s.
    Proof.
      intros s1 os es s fs SO K O H. eapply (run_good os nothing) in H; [apply H| |exact O]. split; [|intro g; reflexivity].
      split; [exact SO|]. split; [exact K|]. split; [intros _; exact I|exact I].
    Qed.
    Lemma history_good : forall os es s fs, shape_ok s0 -> knows Unfitted s0 -> Forall (call_ok (s_params s0)) os ->
      run lossfn sample key_precond interned C os (s0, fun _ => None) = (es, (s, fs)) -> good (v_mode (observe es)) (v_fresh (observe es)) s.
    Proof. exact (history_good_from s0). Qed.
    (** a model with one history saves, a model with another history loads: both are in the same mode *)
    Lemma saved_good : forall s1 os es s fs os' es' t fs0, shape_ok s0 -> knows Unfitted s0 -> shape_ok s1 -> knows Unfitted s1 ->
      Forall (call_ok (s_params s0)) os -> Forall (call_ok (s_params s0)) os' ->
      run lossfn sample key_precond interned C os (s0, fun _ => None) = (es, (s, fs)) ->
      run lossfn sample key_precond interned C os' (s1, fun _ => None) = (es', (t, fs0)) ->
      forall f, exists d fs' u, save s f fs = (Ok d, fs') /\ load interned t (npz_name f) fs' = Ok u /\ s_params u = s_params s /\
        good (v_mode (observe es)) (v_fresh (observe es)) s /\ good (v_mode (observe es)) (v_fresh (observe es)) u.
    Proof.
      intros s1 os es s fs os' es' t fs0 SO K SO1 K1 O O' H H' f. pose proof (history_good _ _ _ _ SO K O H) as G. pose proof (history_good_from _ _ _ _ _ SO1 K1 O' H') as G'.
      destruct (load_again _ _ _ _ _ _ G' G) as [d [u [HS [HL [GU PU]]]]]. exists d. unfold save. rewrite HS. eexists. exists u.
      split; [reflexivity|]. split; [unfold load; rewrite String.eqb_refl; exact HL|]. auto.
    Qed.
  End Steps.
End Inv.
