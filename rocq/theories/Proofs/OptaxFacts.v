(** Optax training. *)
From Coq Require Import String List Bool Arith Reals Permutation Lia Lra.
From Verif Require Import Model.PyDict Model.Bijectors Model.Priors Model.Params Model.State Model.Optim Spec.DictSpec Spec.StateSpec Spec.BijectorSpec
  Spec.RandomSpec Spec.OptimSpec Spec.SearchSpec Proofs.BijectorLemmas Proofs.DictFacts Proofs.TreeFacts Proofs.StateFacts Proofs.UpdateFacts Proofs.SaveLoad
  Proofs.RandomFacts Proofs.StatePropLemmas Proofs.OptimFacts Proofs.OptimRun.
Import ListNotations.
Open Scope string_scope.
Open Scope nat_scope.

(** same kernel, mean, attributes, names and static data *)
Definition shape_of (s s' : state) : Prop :=
  s_kernel s' = s_kernel s /\ s_mean s' = s_mean s /\ s_register s' = s_register s /\ tree_def (s_params s') = tree_def (s_params s).
Lemma unflatten_inv : forall s vs t, state_ok s -> tree_unflatten (tree_def (s_params s)) vs = Ok t ->
  ptree_ok t /\ sorted t /\ tree_def t = tree_def (s_params s) /\ tree_values t = vs.
Proof.
  intros s vs t S H. pose proof (tree_unflatten_inv _ _ _ H) as F. rewrite defs_metas in F. destruct S as [T [St _]].
  destruct (rebuild_ok _ vs T St F) as [t' [E R]]. rewrite H in E. injection E as ->. exact R.
Qed.
Lemma transform_inv : forall mode s s', state_ok s -> transform mode s = Ok s' -> state_ok s' /\ shape_of s s' /\
  exists f, (mode = "forward" /\ f = forward_arr \/ mode = "backward" /\ f = backward_arr) /\
    tree_values (s_params s') = map (fun p => f (m_bijector (p_meta p)) (p_value p)) (params_of (s_params s)).
Proof.
  intros mode s s' S H. unfold transform in H. apply bind_ok in H. destruct H as [f [Hf H]]. cbv zeta in H. apply bind_ok in H. destruct H as [t [Ht H]].
  destruct (unflatten_inv s _ t S Ht) as [T' [S' [D V]]]. change (with_params s t = Ok s') in H. rewrite with_params_ok in H by auto. injection H as <-.
  split; [now apply with_params_state_ok|]. split; [repeat split; exact D|]. exists f. split; [|exact V].
  destruct (String.eqb_spec mode "forward"); [injection Hf as <-; auto|]. destruct (String.eqb_spec mode "backward"); [injection Hf as <-; auto|discriminate].
Qed.
Lemma step_inv : forall s vs s', state_ok s -> state_unflatten (snd (state_flatten s)) vs = Ok s' -> state_ok s' /\ shape_of s s' /\ tree_values (s_params s') = vs.
Proof.
  intros s vs s' S H. cbn [state_flatten snd] in H. unfold state_unflatten in H. apply bind_ok in H. destruct H as [t [Ht H]].
  destruct (unflatten_inv s vs t S Ht) as [T' [S' [D V]]]. rewrite mk_state_eq, set_params_ok in H by apply T'. cbn [bind] in H. rewrite sorted_canon in H by auto. injection H as <-.
  assert (N : norm (s_register s) = s_register s). { apply norm_id. destruct S as [_ [_ [_ [F _]]]]. eapply Forall_impl; [|exact F]. intros kv J. apply J. }
  rewrite N. split; [now apply with_params_state_ok|]. split; [repeat split; exact D|exact V].
Qed.
Lemma shape_trans : forall a b c, shape_of a b -> shape_of b c -> shape_of a c.
Proof. intros a b c [A1 [A2 [A3 A4]]] [B1 [B2 [B3 B4]]]. repeat split; congruence. Qed.
Lemma shape_refl : forall a, shape_of a a.
Proof. intro a. repeat split. Qed.
Lemma loop_inv : forall grad updates n hist s, state_ok s ->
  Forall (fun u => state_ok u /\ shape_of s u) (snd (optax_loop grad updates hist n s)) /\
  (forall u, fst (optax_loop grad updates hist n s) = Ok u -> state_ok u /\ shape_of s u).
Proof.
  intros grad updates n. induction n as [|n IH]; intros hist s S; cbn [optax_loop].
  - split; [constructor|]. intros u H. injection H as <-. split; auto using shape_refl.
  - cbv zeta. destruct (state_unflatten (snd (state_flatten s)) _) as [s'|e] eqn:E; cbn [fst snd].
    + destruct (step_inv s _ s' S E) as [S' [D _]]. destruct (IH (gradients grad s :: hist) s' S') as [I1 I2]. split.
      * constructor; [auto using shape_refl|]. eapply Forall_impl; [|exact I1]. intros u [U1 U2]. split; auto. eapply shape_trans; eauto.
      * intros u H. destruct (I2 u H) as [U1 U2]. split; auto. eapply shape_trans; eauto.
    + split; [constructor; [auto using shape_refl|constructor]|discriminate].
Qed.
(** positions and paths *)
Lemma params_sorted : forall t, sorted t -> params_of t = somes (tleaves t).
Proof. intros t S. unfold params_of. now rewrite sorted_canon. Qed.
Lemma def_pair : forall t t', sorted t -> sorted t' -> tree_def t' = tree_def t ->
  exists w : tree (option param * option param), t = map_tree fst w /\ t' = map_tree snd w /\ every (fun q => option_map p_meta (fst q) = option_map p_meta (snd q)) w.
Proof.
  intros t t' S S' D. unfold tree_def in D. rewrite !sorted_canon in D by auto.
  assert (SN : same_names t t').
  { unfold same_names. apply (f_equal (map_tree (fun _ : option meta => tt))) in D. now rewrite !map_map_tree in D. }
  destruct (tree_pair _ _ SN) as [w [W1 W2]]. exists w. split; auto. split; auto. apply map_tree_inj. rewrite W1, W2, !map_map_tree in D. symmetry. exact D.
Qed.
Lemma path_position : forall t t' path p, sorted t -> sorted t' -> tree_def t' = tree_def t -> lookup path t = Some (Some p) ->
  exists i p', nth_error (params_of t) i = Some p /\ nth_error (params_of t') i = Some p' /\ lookup path t' = Some (Some p') /\ p_meta p' = p_meta p.
Proof.
  intros t t' path p S S' D L. destruct (def_pair t t' S S' D) as [w [W1 [W2 E]]]. rewrite !params_sorted by auto. subst t t'. rewrite !tleaves_map, !lookup_map in *.
  destruct (lookup path w) as [[o o']|] eqn:Lw; [|discriminate]. cbn in L. injection L as ->. pose proof (every_lookup' _ _ _ _ E Lw) as M. cbn in M.
  destruct o' as [p'|]; [|discriminate]. injection M as M.
  assert (In (Some p, Some p') (tleaves w)) as IN.
  { apply (every_lookup' (fun y => In y (tleaves w)) w path); auto. apply every_leaves. now apply Forall_forall. }
  apply every_leaves in E. revert IN E. generalize (tleaves w). clear -M. intro l. induction l as [|[a b] l IH]; intros IN E; [destruct IN|].
  inversion E as [|? ? E1 E2]; subst. cbn in E1. destruct IN as [Q|IN].
  - inversion Q; subst. exists 0, p'. cbn. repeat split; auto.
  - destruct (IH IN E2) as [i [p2 [H1 [H2 [H3 H4]]]]]. cbn in H3. injection H3 as <-. destruct a as [a|], b as [b|]; try discriminate.
    + exists (S i), p'. unfold somes in *. cbn. repeat split; auto.
    + exists i, p'. unfold somes in *. cbn. repeat split; auto.
Qed.
Lemma shape_static : forall s u, state_ok s -> state_ok u -> shape_of s u -> same_static s u.
Proof.
  intros s u [_ [S _]] [_ [S' _]] [H1 [H2 [H3 H4]]]. destruct (def_pair _ _ S S' H4) as [w [W1 [W2 E]]]. repeat split; auto.
  - unfold same_names. rewrite W1, W2, !map_map_tree. reflexivity.
  - intro path. rewrite W1, W2, !lookup_map. destruct (lookup path w) as [q|] eqn:L; [|reflexivity]. pose proof (every_lookup' _ _ _ _ E L) as M. cbn in *. now rewrite M.
Qed.
Lemma on_params_list : forall P t, sorted t -> (on_params P t <-> Forall P (params_of t)).
Proof.
  intros P t S. unfold on_params. rewrite every_leaves, params_sorted by auto. induction (tleaves t) as [|[p|] r IH]; [split; constructor| |]; unfold somes in *; cbn.
  - split; intro H; inversion H; subst; constructor; tauto.
  - split; intro H; [inversion H; subst; tauto|constructor; tauto].
Qed.
Lemma metas_same : forall s u, tree_def (s_params u) = tree_def (s_params s) -> map p_meta (params_of (s_params u)) = map p_meta (params_of (s_params s)).
Proof. intros s u D. exact (defs_eq_metas _ _ D). Qed.
Lemma forward_in_range : forall s u, state_ok s -> on_params (fun p => bij_ok (m_bijector (p_meta p))) (s_params s) -> transform "forward" s = Ok u ->
  on_params entry_in_range (s_params u).
Proof.
  intros s u S B H. destruct (transform_inv _ _ _ S H) as [SU [[_ [_ [_ D]]] [f [[[_ ->]|[F _]] V]]]]; [|discriminate].
  apply on_params_list in B; [|apply S]. apply on_params_list; [apply SU|]. pose proof (metas_same s u D) as M. unfold tree_values in V. revert M V B.
  generalize (params_of (s_params s)) as ps, (params_of (s_params u)) as qs. clear. intro ps. induction ps as [|p ps IH]; intros [|q qs] M V B; try discriminate; constructor.
  - simpl in *. injection M as M1 M2. injection V as V1 V2. inversion B; subst. unfold entry_in_range. rewrite V1, M1. apply Forall_forall. intros x Hx y ->.
    unfold forward_arr in Hx. cbn [a_data] in Hx. apply in_map_iff in Hx. destruct Hx as [[r|] [E _]]; [|discriminate]. simpl in E. injection E as <-. now apply forward_range.
  - simpl in *. injection M as M1 M2. injection V as V1 V2. inversion B; subst. auto.
Qed.
Lemma on_params_meta : forall (P : meta -> Prop) s u, state_ok s -> state_ok u -> tree_def (s_params u) = tree_def (s_params s) ->
  on_params (fun p => P (p_meta p)) (s_params s) -> on_params (fun p => P (p_meta p)) (s_params u).
Proof.
  intros P s u S U D H. apply on_params_list in H; [|apply S]. apply on_params_list; [apply U|]. pose proof (metas_same s u D) as M.
  assert (G : forall ps, Forall (fun p => P (p_meta p)) ps <-> Forall P (map p_meta ps)) by (intro ps; induction ps; simpl; split; intro Z; inversion Z; subst; constructor; tauto).
  rewrite G in *. now rewrite M.
Qed.
Lemma optax_visits : forall grad updates n s, state_ok s ->
  forall u, fst (optax_minimize grad updates n s) = Ok u \/ In (Ok u) (snd (optax_minimize grad updates n s)) ->
  state_ok u /\ same_static s u /\ (on_params (fun p => bij_ok (m_bijector (p_meta p))) (s_params s) -> on_params entry_in_range (s_params u)).
Proof.
  intros grad updates n s S u H. unfold optax_minimize in H. destruct (transform "backward" s) as [b|e] eqn:E; cbn [fst snd] in H; [|destruct H as [H|[]]; discriminate].
  destruct (transform_inv _ _ _ S E) as [SB [DB _]]. destruct (loop_inv grad updates n [] b SB) as [L1 L2].
  assert (G : exists w, state_ok w /\ shape_of b w /\ transform "forward" w = Ok u).
  { destruct H as [H|H].
    - apply bind_ok in H. destruct H as [w [Hw H]]. destruct (L2 w Hw). exists w. auto.
    - apply in_map_iff in H. destruct H as [w [Hw H]]. rewrite Forall_forall in L1. destruct (L1 w H). exists w. auto. }
  destruct G as [w [W1 [W2 W3]]]. destruct (transform_inv _ _ _ W1 W3) as [SU [DU _]]. pose proof (shape_trans _ _ _ DB W2) as SW.
  split; auto. split; [apply shape_static; auto; eapply shape_trans; eauto|]. intro B. apply (forward_in_range w u); auto.
  refine (on_params_meta (fun m => bij_ok (m_bijector m)) s w S W1 _ B). apply SW.
Qed.
Lemma optax_count : forall grad updates n s u, fst (optax_minimize grad updates n s) = Ok u -> length (snd (optax_minimize grad updates n s)) = n.
Proof.
  intros grad updates n s u H. unfold optax_minimize in *. destruct (transform "backward" s) as [b|e]; [|discriminate]. cbn [fst snd] in *. rewrite map_length.
  apply bind_ok in H. destruct H as [w [H _]]. revert H. generalize (@nil (list array)). revert b. induction n as [|n IH]; intros b hist H; cbn [optax_loop] in *; [reflexivity|].
  cbv zeta in *. destruct (state_unflatten _ _) as [b'|]; [|discriminate]. cbn [fst snd length] in *. f_equal. eauto.
Qed.
(** frozen values *)
Lemma add_zero : forall a u, zero_arr u -> length (a_data u) = length (a_data a) -> add_arr a u = a.
Proof.
  intros [sh d data] u Z L. unfold add_arr. cbn [a_data a_shape a_dtype] in *. f_equal. revert data L Z. unfold zero_arr. generalize (a_data u). intro l.
  induction l as [|x l IH]; intros [|y data] L Z; try discriminate; [reflexivity|]. inversion Z; subst. cbn [zip map fst snd]. rewrite (IH data) by auto. f_equal.
  destruct y; simpl; auto. f_equal. lra.
Qed.
Lemma loop_frozen : forall grad updates n hist s u i p, state_ok s -> lazy_updates updates -> (forall s, length (grad s) = length (params_of (s_params s))) ->
  nth_error (params_of (s_params s)) i = Some p -> m_trainable (p_meta p) = false ->
  (forall g, In g hist -> exists a, nth_error g i = Some a /\ zero_arr a) ->
  fst (optax_loop grad updates hist n s) = Ok u -> exists q, nth_error (params_of (s_params u)) i = Some q /\ p_value q = p_value p.
Proof.
  intros grad updates n. induction n as [|n IH]; intros hist s u i p S LZ GL P F H0 H; cbn [optax_loop] in H.
  - injection H as <-. eauto.
  - cbv zeta in H. destruct (state_unflatten (snd (state_flatten s)) _) as [s'|e] eqn:E; [|discriminate]. cbn [fst] in H.
    destruct (step_inv s _ s' S E) as [S' [[_ [_ [_ D]]] V]].
    assert (G : nth_error (gradients grad s) i = Some (zeros_like (p_value p))).
    { unfold gradients. destruct (nth_error (grad s) i) as [g|] eqn:Gi.
      - erewrite map_nth_error; [|rewrite nth_zip, P, Gi; reflexivity]. cbn [fst snd]. now rewrite F.
      - apply nth_error_None in Gi. rewrite GL in Gi. assert (i < length (params_of (s_params s))) by (apply nth_error_Some; congruence). lia. }
    assert (Z : zero_arr (zeros_like (p_value p))). { unfold zero_arr, zeros_like. cbn [a_data]. apply Forall_forall. intros x Hx. apply in_map_iff in Hx. destruct Hx as [? [<- _]]. reflexivity. }
    destruct (LZ _ hist i _ G Z H0) as [upd [U1 [U2 U3]]]. unfold zeros_like in U3. cbn [a_data] in U3. rewrite map_length in U3.
    assert (V' : nth_error (tree_values (s_params s')) i = Some (p_value p)).
    { rewrite V. erewrite map_nth_error; [|rewrite nth_zip; unfold tree_values; rewrite (map_nth_error p_value _ _ P), U1; reflexivity]. cbn [fst snd]. f_equal. now apply add_zero. }
    unfold tree_values in V'. rewrite nth_error_map in V'. destruct (nth_error (params_of (s_params s')) i) as [p'|] eqn:P'; [|discriminate]. cbn in V'. injection V' as V'.
    assert (M : p_meta p' = p_meta p).
    { pose proof (metas_same s s' D) as M. apply (map_nth_error p_meta) in P. apply (map_nth_error p_meta) in P'. congruence. }
    destruct (IH (gradients grad s :: hist) s' u i p' S' LZ GL P') as [q [Q1 Q2]]; auto; [congruence| |exists q; split; congruence].
    intros g [<-|Hg]; [eauto|auto].
Qed.
Lemma optax_frozen : forall grad updates n s u path p, state_ok s -> lazy_updates updates -> (forall s, length (grad s) = length (params_of (s_params s))) ->
  fst (optax_minimize grad updates n s) = Ok u -> lookup path (s_params s) = Some (Some p) -> m_trainable (p_meta p) = false ->
  lookup path (s_params u) = Some (Some (Param (forward_arr (m_bijector (p_meta p)) (backward_arr (m_bijector (p_meta p)) (p_value p))) (p_meta p))).
Proof.
  intros grad updates n s u path p S LZ GL H L F. destruct (optax_visits grad updates n s S u (or_introl H)) as [SU _].
  unfold optax_minimize in H. destruct (transform "backward" s) as [b|e] eqn:E; cbn [fst] in H; [|discriminate].
  apply bind_ok in H. destruct H as [w [Hw H]]. destruct (transform_inv _ _ _ S E) as [SB [DB [f [[[X _]|[_ ->]] VB]]]]; [discriminate|].
  destruct (loop_inv grad updates n [] b SB) as [_ L2]. destruct (L2 w Hw) as [SW DW]. destruct (transform_inv _ _ _ SW H) as [_ [DU [f [[[_ ->]|[X _]] VU]]]]; [|discriminate].
  pose proof (shape_trans _ _ _ DB (shape_trans _ _ _ DW DU)) as [_ [_ [_ DA]]].
  destruct (path_position (s_params s) (s_params u) path p) as [i [p' [P1 [P2 [P3 P4]]]]]; auto; [apply S|apply SU|].
  assert (PB : nth_error (tree_values (s_params b)) i = Some (backward_arr (m_bijector (p_meta p)) (p_value p))) by (rewrite VB; now erewrite map_nth_error by exact P1).
  unfold tree_values in PB. rewrite nth_error_map in PB. destruct (nth_error (params_of (s_params b)) i) as [pb|] eqn:Pb; [|discriminate]. cbn in PB. injection PB as PB.
  assert (MB : p_meta pb = p_meta p).
  { pose proof (metas_same s b (proj2 (proj2 (proj2 DB)))) as M. apply (map_nth_error p_meta) in Pb. apply (map_nth_error p_meta) in P1. congruence. }
  destruct (loop_frozen grad updates n [] b w i pb SB LZ GL Pb) as [q [Q1 Q2]]; auto; [congruence|intros g []|].
  assert (MQ : p_meta q = p_meta p).
  { pose proof (metas_same b w (proj2 (proj2 (proj2 DW)))) as M. apply (map_nth_error p_meta) in Pb. apply (map_nth_error p_meta) in Q1. congruence. }
  assert (PU : nth_error (tree_values (s_params u)) i = Some (forward_arr (m_bijector (p_meta q)) (p_value q))) by (rewrite VU; now erewrite map_nth_error by exact Q1).
  unfold tree_values in PU. rewrite (map_nth_error p_value _ _ P2) in PU. injection PU as PU. rewrite P3. do 2 f_equal. rewrite <- (param_eta p'). f_equal; congruence.
Qed.
Lemma validation_spec : forall x y, match check_validation x y with
  | Err e => e = ValueError /\ x <> y | Ok Plain => x = false /\ y = false | Ok WithValidation => x = true /\ y = true end.
Proof. intros [] []; simpl; auto; split; auto; discriminate. Qed.
(** training does not fail when the optimiser returns one update for each gradient *)
Lemma transform_ok : forall mode s, state_ok s -> on_params (fun p => floating (pr_dtype (m_prior (p_meta p)))) (s_params s) ->
  mode = "forward" \/ mode = "backward" -> exists u, transform mode s = Ok u.
Proof.
  intros mode s S F M. apply on_params_list in F; [|apply S].
  assert (G : forall f, f = forward_arr \/ f = backward_arr -> exists u, (let ps := params_of (s_params s) in
    let vs := map (fun p => f (m_bijector (p_meta p)) (p_value p)) ps in
    bind (tree_unflatten (tree_def (s_params s)) vs) (fun t => fst (state_update s [("params", OParams t)]))) = Ok u).
  { intros f Hf. cbv zeta. destruct (rebuild_ok (s_params s) (map (fun p => f (m_bijector (p_meta p)) (p_value p)) (params_of (s_params s)))) as [t [E [T [St _]]]]; try apply S.
    - pose proof (own_fits s S) as O. unfold metas, tree_values in *. clear -F O Hf. induction (params_of (s_params s)) as [|p ps IH]; simpl in *; constructor; inversion F; inversion O; subst; auto.
      destruct H6 as [O1 O2]. unfold fits. destruct Hf; subst; cbn; rewrite O1, O2, bij_dtype_floating; auto.
    - rewrite E. cbn [bind]. exists (State (s_kernel s) (s_mean s) t (s_register s)). exact (with_params_ok s t S T St). }
  unfold transform. destruct M; subst mode; cbn [String.eqb Ascii.eqb Bool.eqb bind]; apply G; auto.
Qed.
Lemma optax_succeeds : forall grad updates n s, state_ok s -> on_params (fun p => floating (pr_dtype (m_prior (p_meta p)))) (s_params s) ->
  (forall s, length (grad s) = length (params_of (s_params s))) -> (forall g hist, length (updates (g :: hist)) = length g) ->
  exists u, fst (optax_minimize grad updates n s) = Ok u.
Proof.
  intros grad updates n s S F GL UL. unfold optax_minimize. destruct (transform_ok "backward" s S F (or_intror eq_refl)) as [b Eb]. rewrite Eb. cbn [fst].
  destruct (transform_inv _ _ _ S Eb) as [SB [DB _]]. destruct (loop_inv grad updates n [] b SB) as [_ L2].
  assert (G : exists w, fst (optax_loop grad updates [] n b) = Ok w).
  { clear -SB GL UL. generalize (@nil (list array)). revert b SB. induction n as [|n IH]; intros b SB hist; cbn [optax_loop]; [exists b; reflexivity|]. cbv zeta.
    destruct (state_rebuild b (map (fun q => add_arr (fst q) (snd q)) (zip (tree_values (s_params b)) (updates (gradients grad b :: hist)))) SB) as [b' [E _]].
    - pose proof (own_fits b SB) as O. assert (L : length (tree_values (s_params b)) = length (updates (gradients grad b :: hist))).
      { rewrite UL. unfold gradients, tree_values. rewrite !map_length. symmetry. apply zip_length. now rewrite GL. }
      revert O L. generalize (updates (gradients grad b :: hist)) as us, (tree_values (s_params b)) as vs, (metas (s_params b)) as ms. clear.
      intros us vs ms O. revert us. induction O as [|m v ms vs [H1 H2] O IH]; intros [|u us] L; try discriminate; constructor; auto. split; assumption.
    - rewrite E. cbn [fst]. destruct (step_inv b _ b' SB E) as [SB' _]. apply IH. exact SB'. }
  destruct G as [w Hw]. rewrite Hw. cbn [bind]. destruct (L2 w Hw) as [SW DW].
  apply transform_ok; auto. pose proof (shape_trans _ _ _ DB DW) as [_ [_ [_ D]]]. exact (on_params_meta (fun m => floating (pr_dtype (m_prior m))) s w S SW D F).
Qed.
