(** Lemmas in the form in which Props/TDClassProps.v states them, and concrete models. *)
From Coq Require Import String List Bool Arith Reals Lra Lia.
From Verif Require Import Model.PyDict Model.Bijectors Model.Params Model.State Model.Optim Model.Calls Model.Lifecycle Model.TDClass
  Spec.DictSpec Spec.StateSpec Spec.RandomSpec Spec.OptimSpec Spec.LifecycleSpec Spec.TDClassSpec
  Proofs.DictFacts Proofs.TreeFacts Proofs.StateFacts Proofs.UpdateFacts Proofs.SaveLoad Proofs.RandomFacts
  Proofs.StatePropLemmas Proofs.OptimFacts Proofs.OptimRun Proofs.OptimSearch Proofs.StateExamples Proofs.OptimPropLemmas Proofs.OptimExamples
  Proofs.LifecycleFacts Proofs.LifecyclePropLemmas Proofs.DispatchFacts Proofs.TDClassFacts.
Import ListNotations.
Open Scope string_scope.
Open Scope nat_scope.

Section Thm.
  Context (lossfn : obj -> option (sig * (td_data -> dict obj -> state -> result (num * array)))) (sample : key -> prior_obj -> array)
    (gkey : obj) (num_fit : td_numerics) (num_predict : ptree -> obj -> list obj -> td_query -> result (list array)) (interned : string -> bool)
    (s0 : state) (kernel mean : obj) (kp : option ptree) (st sd sd2 : option param) (l : nat).
  Hypothesis S : state_ok s0.
  Hypothesis SA : sampler_ok sample.
  Hypothesis F : float_params (s_params s0).
  Hypothesis NO : names_ok interned ["params"] (s_params s0).
  Hypothesis PN : td_plain_numerics num_fit.
  Hypothesis HI : td_init kernel mean kp st sd sd2 (OCall l) = Ok s0.

  Lemma td_world : forall os es s fs, Forall td_call_ok os -> td_run lossfn sample gkey num_fit interned os (s0, fun _ => None) = (es, (s, fs)) ->
    tworld gkey num_fit s0 (td_observe es) (s, fs).
  Proof.
    intros os es s fs O H. destruct (td_start gkey num_fit _ _ _ _ _ _ _ _ HI S) as [_ [_ [SO K]]].
    apply (thistory lossfn sample gkey num_fit interned s0 PN SA F (proj1 (proj2 S)) NO s0 os es s fs SO K O H).
  Qed.
  (** from other values and another loss *)
  Lemma td_world_from : forall kp' st' sd' sd2' l' s1 os es s fs, td_init kernel mean kp' st' sd' sd2' (OCall l') = Ok s1 -> state_ok s1 ->
    tree_def (s_params s1) = tree_def (s_params s0) -> Forall td_call_ok os -> td_run lossfn sample gkey num_fit interned os (s1, fun _ => None) = (es, (s, fs)) ->
    tworld gkey num_fit s0 (td_observe es) (s, fs).
  Proof.
    intros kp' st' sd' sd2' l' s1 os es s fs HI1 S1 D1 O H. destruct (td_start gkey num_fit _ _ _ _ _ _ _ _ HI S) as [EK [EM [SO K]]].
    destruct (td_start gkey num_fit _ _ _ _ _ _ _ _ HI1 S1) as [EK1 [EM1 [[_ [_ [_ [_ SO1]]]] K1]]].
    eapply (thistory lossfn sample gkey num_fit interned s0 PN SA F (proj1 (proj2 S)) NO s1 os es s fs); [|exact K1|exact O|exact H].
    split; [exact S1|]. split; [congruence|]. split; [congruence|]. split; [exact D1|exact SO1].
  Qed.
  Lemma td_history : forall os es s fs, Forall td_call_ok os -> td_run lossfn sample gkey num_fit interned os (s0, fun _ => None) = (es, (s, fs)) ->
    td_serves gkey num_fit num_predict kernel mean s (tv_fit (td_observe es)).
  Proof.
    intros os es s fs O H. destruct (td_start gkey num_fit _ _ _ _ _ _ _ _ HI S) as [EK [EM _]]. destruct (td_world _ _ _ _ O H) as [G _]. rewrite <- EK, <- EM. eapply tanswers. exact G.
  Qed.
  Lemma td_fresh : forall os es s fs, Forall td_call_ok os -> td_run lossfn sample gkey num_fit interned os (s0, fun _ => None) = (es, (s, fs)) ->
    tv_fresh (td_observe es) = true -> forall p d a, tv_fit (td_observe es) = Some (p, d, a) -> p = s_params s.
  Proof.
    intros os es s fs O H B p d a E. destruct (td_world _ _ _ _ O H) as [[_ [_ C]] _]. specialize (C B). cbn [fst] in C. now rewrite E in C.
  Qed.
  Lemma init_params : ptree_ok (td_params kp st sd sd2) -> s_params s0 = canon (td_params kp st sd sd2).
  Proof.
    intro P. unfold td_init, mk_state in HI. apply bind_ok in HI. destruct HI as [t [H1 H2]]. injection H2 as <-. cbn [s_params].
    apply (set_params_inv (OParams (td_params kp st sd sd2))) in H1; [|exact P]. apply H1.
  Qed.
  Lemma left_out_none : ptree_ok (td_params kp st sd sd2) -> td_left_out kp st sd sd2 -> ~ no_none (s_params s0).
  Proof.
    intros P L H. rewrite (init_params P) in H. unfold no_none in H. apply every_canon in H. unfold td_params in H. apply every_node in H.
    inversion H as [|? ? A1 H1]; subst. inversion H1 as [|? ? A2 H2]; subst. inversion H2 as [|? ? A3 H3]; subst. inversion H3 as [|? ? A4 _]; subst.
    cbn in A1, A2, A3, A4. destruct L as [L|[L|[L|L]]]; subst; cbn in *; congruence.
  Qed.
  Lemma save_raises : ptree_ok (td_params kp st sd sd2) -> td_left_out kp st sd sd2 -> forall s, tshape s0 s -> save_dict s = Err AttributeError.
  Proof.
    intros P L s [T1 [_ [_ [T4 _]]]].
    assert (NN : ~ no_none (s_params s)). { intro X. apply (left_out_none P L). eapply tnone_def; [exact T1|exact S|exact T4|exact X]. }
    assert (K : exists l0 kp0, s_params s = Node l0 /\ get "kernel_params" l0 = Some kp0).
    { assert (Q : exists l0 kp0, s_params s0 = Node l0 /\ get "kernel_params" l0 = Some kp0).
      { rewrite (init_params P). unfold td_params. rewrite canon_node. do 2 eexists. split; [reflexivity|]. cbn. reflexivity. }
      destruct Q as [l0 [k0 [Q1 Q2]]]. rewrite !def_sorted in T4 by (apply T1 || apply S). rewrite Q1, map_node in T4.
      destruct (s_params s) as [o|l1]; [discriminate|]. rewrite map_node in T4. injection T4 as T4. exists l1.
      assert (X : get "kernel_params" (vmap (map_tree (option_map p_meta)) l1) = Some (map_tree (option_map p_meta) k0)) by (rewrite T4, get_vmap, Q2; reflexivity).
      rewrite get_vmap in X. destruct (get "kernel_params" l1) as [k1|]; [|discriminate]. exists k1. auto. }
    destruct K as [l0 [[o|lk] [E G]]]; [|eapply save_none; eauto]. unfold save_dict. rewrite E. cbn [as_node bind]. now rewrite G.
  Qed.
  Lemma td_never_saved : ptree_ok (td_params kp st sd sd2) -> td_left_out kp st sd sd2 ->
    forall os es s fs, Forall td_call_ok os -> td_run lossfn sample gkey num_fit interned os (s0, fun _ => None) = (es, (s, fs)) ->
    Forall (fun e => match fst (fst e) with TDSave _ => snd (fst e) = Err AttributeError | _ => True end) es /\ forall g, fs g = None.
  Proof.
    intros P L os es s fs O H. destruct (td_start gkey num_fit _ _ _ _ _ _ _ _ HI S) as [_ [_ [SO K]]].
    assert (W : tworld gkey num_fit s0 td_nothing (s0, fun _ => None)).
    { split; [|intro g; reflexivity]. split; [exact SO|]. split; [exact K|]. intros _. exact I. }
    enough (X : forall os, Forall td_call_ok os -> forall s1 fs1 v es, tworld gkey num_fit s0 v (s1, fs1) -> (forall g, fs1 g = None) ->
      td_run lossfn sample gkey num_fit interned os (s1, fs1) = (es, (s, fs)) ->
      Forall (fun e => match fst (fst e) with TDSave _ => snd (fst e) = Err AttributeError | _ => True end) es /\ forall g, fs g = None).
    { exact (X os O s0 (fun _ => None) td_nothing es W (fun _ => eq_refl) H). }
    clear W K SO os es O H. intros os O. induction O as [|o r HO O IH]; intros s1 fs1 v es W FE H; cbn [td_run] in H; cbv zeta in H.
    - injection H as <- <- <-. split; [constructor|exact FE].
    - destruct (td_step lossfn sample gkey num_fit interned o (s1, fs1)) as [r0 [s2 fs2]] eqn:E. cbn [fst snd] in H.
      destruct (td_run lossfn sample gkey num_fit interned r (s2, fs2)) as [es' w2] eqn:E'. cbn [fst snd] in H. injection H as <- ->.
      assert (FS : (match o with TDSave _ => r0 = Err AttributeError | _ => True end) /\ forall g, fs2 g = None).
      { destruct o as [d a|f|f]; cbn [td_step fst snd] in E.
        - cbv zeta in E. injection E as _ _ <-. auto.
        - unfold save in E. rewrite (save_raises P L s1 (proj1 (proj1 W))) in E. injection E as <- _ <-. auto.
        - unfold load in E. rewrite FE in E. injection E as _ _ <-. auto. }
      destruct FS as [F1 F2]. pose proof (tstep_good lossfn sample gkey num_fit interned s0 PN SA F (proj1 (proj2 S)) NO o v (s1, fs1) r0 (s2, fs2) W HO E) as W2.
      destruct (IH s2 fs2 _ es' W2 F2 E') as [G1 G2]. split; [|exact G2]. constructor; [exact F1|exact G1].
  Qed.
  Lemma td_saved : savable interned (s_params s0) ->
    forall kp' st' sd' sd2' l' s1 os es s fs os' es' t fs0, state_ok s1 -> tree_def (s_params s1) = tree_def (s_params s0) ->
    td_init kernel mean kp' st' sd' sd2' (OCall l') = Ok s1 -> Forall td_call_ok os -> Forall td_call_ok os' ->
    td_run lossfn sample gkey num_fit interned os (s0, fun _ => None) = (es, (s, fs)) ->
    td_run lossfn sample gkey num_fit interned os' (s1, fun _ => None) = (es', (t, fs0)) ->
    forall f, exists d fs' t', save s f fs = (Ok d, fs') /\ load interned t (npz_name f) fs' = Ok t' /\
      s_params t' = s_params s /\ forall q, td_predict num_predict t' q = td_predict num_predict s q.
  Proof.
    intros SV kp' st' sd' sd2' l' s1 os es s fs os' es' t fs0 S1 D1 HI1 O O' H H' f. destruct (td_world _ _ _ _ O H) as [G _]. destruct (td_world_from _ _ _ _ _ _ _ _ _ _ HI1 S1 D1 O' H') as [G' _]. cbn [fst] in G, G'.
    assert (SVs : savable interned (s_params s)). { eapply savable_def; [apply S|apply G| |exact SV]. symmetry. apply G. }
    assert (AN : Forall (fun kv => is_callable (snd kv) = false -> aux_name (fst kv)) (s_register s)).
    { apply Forall_forall. intros [k v] Hk _. cbn [fst]. apply td_aux. destruct G as [[G1 [_ [_ [_ G5]]]] _]. apply (G5 k v). apply get_in_nodup; [apply G1|exact Hk]. }
    destruct (unflatten_saved interned s (proj1 (proj1 G)) SVs AN) as [l0 [lk [_ [_ [_ [d [HS _]]]]]]].
    destruct (tload_step gkey num_fit interned s0 (proj1 (proj2 S)) NO t _ _ s d (proj1 G') G HS) as [t' [HL [GT PT]]].
    exists d. unfold save. rewrite HS. eexists. exists t'. split; [reflexivity|]. split; [unfold load; rewrite String.eqb_refl; exact HL|]. split; [exact PT|].
    intro q. pose proof (tanswers gkey num_fit num_predict s0 _ _ _ G) as A. pose proof (tanswers gkey num_fit num_predict s0 _ _ _ GT) as B.
    destruct (tv_fit (td_observe es)) as [[[p d0] a]|]; cbn [td_serves] in A, B.
    - destruct A as [f1 [A1 A2]], B as [f2 [B1 B2]]. rewrite A1 in B1. injection B1 as <-. now rewrite A2, B2, PT.
    - now rewrite A, B.
  Qed.
End Thm.

(** ** the default loss *)
Definition td_loss_options : list string := ["num_evals"; "num_lanczos"; "key_lanczos"].
Lemma td_default_loss : forall gkey body d a x s, (forall k, In k (map fst (ta_loss_kwargs a)) -> In k td_loss_options) ->
  td_loss_positional (td_loss_sig, body) d (td_loss_kwargs gkey a) x s = body d (td_loss_kwargs gkey a) s /\
  td_loss_keywords (td_loss_sig, body) d (td_loss_kwargs gkey a) s = bind (body d (td_loss_kwargs gkey a) s) (fun v => Ok (fst v)).
Proof.
  intros gkey body d a x s HK.
  assert (KW : forall k, In k (map fst (td_loss_kwargs gkey a)) -> k = "key_precond" \/ k = "n_pivots" \/ k = "iterative" \/ In k td_loss_options).
  { intros k H. unfold td_loss_kwargs in H. rewrite !in_set_keys in H. intuition auto. }
  unfold td_loss_positional, td_loss_keywords, call. cbn [fst snd]. generalize dependent (td_loss_kwargs gkey a). intros kw KW.
  assert (A1 : accepts td_loss_sig 3 (map fst kw ++ td_more) = true).
  { unfold accepts. rewrite !andb_true_iff. split; [split; [reflexivity|]|].
    - apply forallb_forall. intros k H. apply in_app_iff in H. destruct H as [H|H].
      + destruct (KW k H) as [->|[->|[->|H']]]; try reflexivity. cbn in H'. repeat (destruct H' as [<-|H']; [reflexivity|]). contradiction.
      + cbn in H. repeat (destruct H as [<-|H]; [reflexivity|]). contradiction.
    - apply forallb_forall. intros k H. cbn in H. apply mem_name_in. apply in_app_iff. right. cbn. tauto. }
  assert (A2 : accepts td_loss_sig 0 (["state"; "x"; "y"] ++ map fst kw ++ td_more)%list = true).
  { apply accepts_iff. split.
    - intros k H. rewrite !in_app_iff in H. destruct H as [H|[H|H]].
      + cbn in H. cbn. tauto.
      + destruct (KW k H) as [->|[->|[->|H']]]; cbn in *; tauto.
      + cbn in *. tauto.
    - intros k H. rewrite !in_app_iff. cbn in *. tauto. }
  rewrite A1, A2. split; reflexivity.
Qed.
(** the key of the caller *)
Lemma td_key_unused : forall lossfn sample gkey num_fit d it np cg mn r k h kw s key key',
  td_fit lossfn sample gkey num_fit d (TDArgs it np key cg mn r k h kw) s = td_fit lossfn sample gkey num_fit d (TDArgs it np key' cg mn r k h kw) s.
Proof. reflexivity. Qed.

(** ** a concrete model *)
Definition exd_sigma : param := scalar_param true 1.
Definition exd_kp (l : R) : ptree := Node [("lengthscale", Leaf (Some (scalar_param false l)))].
Definition exd_state (l st sd : R) (sd2 : option param) : state :=
  State (OCall 1) (OCall 2)
    (Node [("kernel_params", exd_kp l); ("sigma_derivs", Leaf (Some (scalar_param true sd))); ("sigma_derivs2", Leaf sd2); ("sigma_targets", Leaf (Some (scalar_param true st)))])
    [("loss_fn", OCall 7); ("x_train", ONone); ("jacobian_train", ONone); ("jacobian_train_2", ONone); ("jaccoef", ONone);
     ("jaccoef_2", ONone); ("y_train", ONone); ("y_derivs_train", ONone); ("y_derivs_train_2", ONone);
     ("is_fitted", OBool false); ("c", ONone); ("c_targets", ONone); ("mu", ONone)].
Lemma exd_init : forall sd2, (sd2 = None \/ sd2 = Some exd_sigma) ->
  td_init (OCall 1) (OCall 2) (Some (exd_kp 1)) (Some exd_sigma) (Some exd_sigma) sd2 (OCall 7) = Ok (exd_state 1 1 1 sd2).
Proof. intros sd2 [->| ->]; reflexivity. Qed.
Definition exd_loss (o : obj) : option (sig * (td_data -> dict obj -> state -> result (num * array))) :=
  match o with OCall 7 => Some (td_loss_sig, fun _ _ _ => Ok (Some 0%R, Arr [] F64 [Some 0%R])) | _ => None end.
(** the coefficient is the noise of the derivatives; two points are refused *)
Definition exd_fit : td_numerics := fun p _ _ d _ =>
  match a_shape (td_x d), lookup ["sigma_derivs"] p with [1], Some (Some q) => Ok (fun _ => Arr [1] F64 (a_data (p_value q))) | _, _ => Err ValueError end.
Definition exd_predict : ptree -> obj -> list obj -> td_query -> result (list array) := fun _ _ vs _ =>
  match vs with [_; _; _; OArr c; _] => Ok [c] | _ => Err TypeError end.
Definition exd_args (m : option (array -> strategy (num * array) array)) : td_args := TDArgs false ONone ONone ONone m 0 None false [].
Definition exd_data : td_data := TDData ex_x1 ex_x1 ex_x1 ex_x1 None None.
Definition exd_bad : td_data := TDData ex_x2 ex_x2 ex_x1 ex_x1 None None.
Definition exd_q : td_query := TDQuery ex_x1 ex_x1 None false.
Lemma exd_ok : forall l st sd sd2, (sd2 = None \/ sd2 = Some exd_sigma) -> state_ok (exd_state l st sd sd2).
Proof.
  intros l st sd sd2 E. split; [|split; [|split; [nodup|split; [|split; exact I]]]].
  - split.
    + cbn. split; [nodup|]. repeat split; nodup.
    + destruct E as [-> | ->]; cbn; repeat split.
  - cbn. split; [|tauto || (repeat split; repeat constructor)]. repeat constructor.
  - repeat constructor; simpl; tauto.
Qed.
Lemma exd_float : forall l st sd sd2, (sd2 = None \/ sd2 = Some exd_sigma) -> float_params (s_params (exd_state l st sd sd2)).
Proof. intros l st sd sd2 [-> | ->]; cbn; repeat split; intros; cbn; auto. Qed.
Lemma exd_names : forall l st sd sd2, names_ok cpython_interned ["params"] (s_params (exd_state l st sd sd2)).
Proof. intros. simpl. repeat split; try discriminate; try (intros; discriminate); nodup. Qed.
Lemma exd_plain : td_plain_numerics exd_fit.
Proof.
  intros p k m d o f name H. unfold exd_fit in H. destruct (a_shape (td_x d)) as [|[|[|n]] [|b r]]; try discriminate. destruct (lookup _ p) as [[q|]|]; try discriminate.
  injection H as <-. intro X. discriminate.
Qed.
Lemma exd_savable : savable cpython_interned (s_params (exd_state 1 1 1 (Some exd_sigma))).
Proof. split; [simpl; repeat split; discriminate|]. split; [apply exd_names|]. do 2 eexists. split; reflexivity. Qed.
Lemma exd_params_ok : forall sd2, (sd2 = None \/ sd2 = Some exd_sigma) -> ptree_ok (td_params (Some (exd_kp 1)) (Some exd_sigma) (Some exd_sigma) sd2).
Proof. intros sd2 E. split; [cbn; split; [nodup|]; repeat split; nodup|]. destruct E as [-> | ->]; cbn; repeat split. Qed.
(** the same state after a fit *)
Definition exd_after (st sd c : R) (sd2 : option param) : state :=
  State (OCall 1) (OCall 2) (s_params (exd_state 1 st sd sd2))
    [("loss_fn", OCall 7); ("x_train", OArr ex_x1); ("jacobian_train", OArr ex_x1); ("jacobian_train_2", ONone); ("jaccoef", OArr (Arr [1] F64 [Some c]));
     ("jaccoef_2", ONone); ("y_train", OArr ex_x1); ("y_derivs_train", OArr ex_x1); ("y_derivs_train_2", ONone);
     ("is_fitted", OBool true); ("c", OArr (Arr [1] F64 [Some c])); ("c_targets", OArr (Arr [1] F64 [Some c])); ("mu", OArr (Arr [1] F64 [Some c]))].
Lemma exd_plain_fit : forall st sd c, td_fit exd_loss ex_sampler ONone exd_fit exd_data (exd_args None) (exd_after st sd c None) = (Ok tt, exd_after st sd sd None).
Proof. reflexivity. Qed.
Lemma exd_first_fit : td_fit exd_loss ex_sampler ONone exd_fit exd_data (exd_args None) (exd_state 1 1 1 None) = (Ok tt, exd_after 1 1 1 None).
Proof. reflexivity. Qed.
Lemma exd_fail : td_fit exd_loss ex_sampler ONone exd_fit exd_bad (exd_args (ex_min 1 1)) (exd_after 1 1 1 None) = (Err ValueError, exd_after up up 1 None).
Proof. reflexivity. Qed.
Lemma exd_ask : forall st sd c, td_predict exd_predict (exd_after st sd c None) exd_q = Ok [Arr [1] F64 [Some c]].
Proof. reflexivity. Qed.
Lemma td_stale : exists lossfn sample gkey num_fit num_predict s0 d d' a a' es s fs q r s' r', state_ok s0 /\ sampler_ok sample /\
  td_run lossfn sample gkey num_fit cpython_interned [TDFit d a; TDFit d' a'] (s0, fun _ => None) = (es, (s, fs)) /\
  map (fun e => snd (fst e)) es = [Ok tt; Err ValueError] /\ td_predict num_predict s q = Ok r /\
  td_fit lossfn sample gkey num_fit d a s = (Ok tt, s') /\ ta_minimize a = None /\
  td_predict num_predict s' q = Ok r' /\ r <> r'.
Proof.
  exists exd_loss, ex_sampler, ONone, exd_fit, exd_predict, (exd_state 1 1 1 None), exd_data, exd_bad, (exd_args None), (exd_args (ex_min 1 1)).
  exists [(TDFit exd_data (exd_args None), Ok tt, exd_after 1 1 1 None); (TDFit exd_bad (exd_args (ex_min 1 1)), Err ValueError, exd_after up up 1 None)].
  exists (exd_after up up 1 None), (fun _ => None), exd_q, [Arr [1] F64 [Some 1%R]], (exd_after up up up None), [Arr [1] F64 [Some up]].
  split; [apply exd_ok; auto|]. split; [apply ex_sampler_ok|].
  split. { unfold td_run, td_step. cbv zeta. cbn [fst snd]. rewrite exd_first_fit. cbn [fst snd]. rewrite exd_fail. reflexivity. }
  split; [reflexivity|]. split; [apply exd_ask|]. split; [apply exd_plain_fit|]. split; [reflexivity|]. split; [apply exd_ask|apply arr_up].
Qed.
(** fit with a minimisation, save, fit again, load *)
Definition exd_after3 (t3 d3 d2 c : R) : state :=
  State (OCall 1) (OCall 2) (s_params (exd_state 1 t3 d3 (Some (scalar_param true d2)))) (s_register (exd_after 1 1 c None)).
Definition ex_min3 : option (array -> strategy (num * array) array) := Some (fun _ => Done (vec [1; 1; 1]%R)).
Definition exd_ops3 : list td_op := [TDFit exd_data (exd_args ex_min3); TDSave "m"; TDFit exd_bad (exd_args ex_min3); TDLoad "m.npz"].
Lemma exd_ops3_ok : Forall td_call_ok exd_ops3.
Proof. repeat constructor; cbn; try discriminate. Qed.
Lemma exd_history : exists es s fs,
  td_run exd_loss ex_sampler ONone exd_fit cpython_interned exd_ops3 (exd_state 1 1 1 (Some exd_sigma), fun _ => None) = (es, (s, fs)) /\
  map (fun e => snd (fst e)) es = [Ok tt; Ok tt; Err ValueError; Ok tt] /\ tv_fresh (td_observe es) = true /\
  tv_fit (td_observe es) = Some (s_params (exd_state 1 up up (Some (scalar_param true up))), exd_data, exd_args ex_min3).
Proof.
  unfold exd_ops3, td_run, td_step. cbv zeta. cbn [fst snd].
  assert (E1 : td_fit exd_loss ex_sampler ONone exd_fit exd_data (exd_args ex_min3) (exd_state 1 1 1 (Some exd_sigma)) = (Ok tt, exd_after3 up up up up)) by reflexivity.
  rewrite E1. cbn [fst snd].
  assert (E2 : td_fit exd_loss ex_sampler ONone exd_fit exd_bad (exd_args ex_min3) (exd_after3 up up up up) = (Err ValueError, exd_after3 up up up up)) by reflexivity.
  set (sv := save _ _ _). cbn in sv. subst sv. cbn [fst snd]. rewrite E2. cbn [fst snd].
  set (ld := load _ _ _ _). cbn in ld. subst ld. cbv beta iota. do 3 eexists. split; [reflexivity|]. split; [reflexivity|]. split; reflexivity.
Qed.
