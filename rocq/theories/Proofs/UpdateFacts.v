(** update, pytree round trips, randomize, transform and load keep states well formed; fields after update. *)
From Coq Require Import String List Bool Arith Reals Permutation Lia.
From Verif Require Import Model.PyDict Model.Bijectors Model.Params Model.State Spec.StateSpec
  Proofs.DictFacts Proofs.TreeFacts Proofs.StateFacts.
Import ListNotations.
Open Scope string_scope.

(** ** lookups *)
Lemma get_in_nodup : forall {A} k (v : A) d, NoDup (map fst d) -> (get k d = Some v <-> In (k, v) d).
Proof.
  intros A k v d N. induction d as [|[k' v'] r IH]; simpl; [split; [discriminate|tauto]|]. simpl in N. inversion N; subst.
  destruct (String.eqb_spec k k') as [->|E].
  - split; intro H; [inversion H; auto|]. destruct H as [H|H]; [congruence|]. apply (in_map fst) in H. tauto.
  - rewrite IH by auto. split; intro H; [auto|]. destruct H as [H|H]; [congruence|auto].
Qed.
Lemma get_perm : forall {A} k (d e : dict A), Permutation d e -> NoDup (map fst d) -> get k d = get k e.
Proof.
  intros A k d e P N. assert (N' : NoDup (map fst e)) by (eapply Permutation_NoDup; [apply Permutation_map; exact P|auto]).
  destruct (get k d) as [v|] eqn:E.
  - apply get_in_nodup in E; auto. symmetry. apply get_in_nodup; auto. eapply Permutation_in; eauto.
  - destruct (get k e) as [v|] eqn:E'; auto. apply get_in_nodup in E'; auto.
    assert (In (k, v) d) by (eapply Permutation_in; [apply Permutation_sym|]; eauto). apply get_in_nodup in H; auto. congruence.
Qed.
Lemma lookup_canon : forall {A} (t : tree A), keys_distinct t -> same_leaves (canon t) t.
Proof.
  intros A t. induction t as [a|l IH] using tree_ind'; intros K path; [now destruct path|].
  rewrite canon_node. apply kd_node in K. destruct K as [N K]. destruct path as [|k r]; [reflexivity|]. simpl.
  rewrite (get_perm k _ (vmap canon l)); [|apply sort_perm|].
  - rewrite get_vmap. destruct (get k l) as [s|] eqn:E; [|reflexivity]. simpl.
    apply get_in_nodup in E; auto. rewrite Forall_forall in IH, K. specialize (IH _ E (K _ E)). apply IH.
  - eapply Permutation_NoDup; [apply Permutation_sym, sort_keys_perm|]. now rewrite vmap_keys.
Qed.

(** ** merging *)
Lemma set_comm : forall {A} k k' (v v' : A) d, k <> k' -> In k (map fst d) -> set k v (set k' v' d) = set k' v' (set k v d).
Proof.
  intros A k k' v v' d N. induction d as [|[k2 v2] r IH]; simpl; [tauto|]. intro H.
  destruct (String.eqb_spec k' k2) as [E1|E1], (String.eqb_spec k k2) as [E2|E2]; simpl.
  - congruence.
  - destruct (String.eqb_spec k k2); [congruence|]. destruct (String.eqb_spec k' k2); [|congruence]. reflexivity.
  - destruct (String.eqb_spec k k2); [|congruence]. destruct (String.eqb_spec k' k2); [congruence|]. reflexivity.
  - destruct (String.eqb_spec k k2); [congruence|]. destruct (String.eqb_spec k' k2); [congruence|].
    rewrite IH; auto. destruct H; [congruence|auto].
Qed.
Lemma in_set : forall {A} k k' (v : A) d, In k (map fst (set k' v d)) <-> k = k' \/ In k (map fst d).
Proof.
  intros A k k' v d. induction d as [|[k2 v2] r IH]; simpl; [intuition|].
  destruct (String.eqb_spec k' k2) as [->|E]; simpl; [intuition|]. rewrite IH. intuition.
Qed.
Lemma merge_set_in : forall {A} (r : dict A) k v d, ~ In k (map fst r) -> In k (map fst d) ->
  set k v (merge d r) = merge (set k v d) r.
Proof.
  intros A r k v. unfold merge. induction r as [|[k2 v2] r IH]; intros d N I; simpl; auto. simpl in N.
  rewrite IH; [|tauto|apply in_set; auto]. f_equal. apply set_comm; auto.
Qed.
Lemma merge_snoc_set : forall {A} (b : dict A) k v a, NoDup (map fst b) -> merge a (set k v b) = set k v (merge a b).
Proof.
  intros A b k v. induction b as [|[k2 v2] r IH]; intros a N; [reflexivity|]. simpl in N. inversion N; subst. simpl set.
  destruct (String.eqb_spec k k2) as [->|E].
  - change (merge (set k2 v a) r = set k2 v (merge (set k2 v2 a) r)). rewrite merge_set_in; auto; [|apply in_set; auto]. now rewrite set_set.
  - change (merge (set k2 v2 a) (set k v r) = set k v (merge (set k2 v2 a) r)). now apply IH.
Qed.
Lemma merge_assoc : forall {A} (c b a : dict A), NoDup (map fst b) -> merge (merge a b) c = merge a (merge b c).
Proof.
  intros A c. induction c as [|[k v] r IH]; intros b a N; [reflexivity|].
  change (merge (set k v (merge a b)) r = merge a (merge (set k v b) r)).
  rewrite <- IH by (now apply set_nodup). now rewrite merge_snoc_set.
Qed.
Lemma set_vmap : forall {A B} (f : A -> B) k v d, set k (f v) (vmap f d) = vmap f (set k v d).
Proof. intros A B f k v d. induction d as [|[k' v'] r IH]; simpl; auto. destruct (String.eqb k k'); simpl; auto. now rewrite IH. Qed.
Lemma merge_vmap : forall {A B} (f : A -> B) e d, merge (vmap f d) (vmap f e) = vmap f (merge d e).
Proof.
  intros A B f e. unfold merge. induction e as [|[k v] r IH]; intro d; [reflexivity|]. simpl. rewrite set_vmap. apply IH.
Qed.
Lemma norm_merge_l : forall d e, norm (merge (norm d) e) = norm (merge d e).
Proof.
  intros d e. unfold norm. rewrite <- merge_vmap, vmap_vmap.
  rewrite (vmap_ext (fun x => as_attr (as_attr x)) as_attr); [apply merge_vmap|].
  apply Forall_forall. intros kv _. apply as_attr_id, as_attr_not_raw.
Qed.
Lemma set_del_same : forall {A} k (v : A) d, del k (set k v d) = del k d.
Proof.
  intros A k v d. unfold del. induction d as [|[k' v'] r IH]; simpl; [now rewrite String.eqb_refl|].
  destruct (String.eqb_spec k k') as [->|E]; simpl.
  - now rewrite String.eqb_refl.
  - destruct (String.eqb_spec k k'); [congruence|]. simpl. now rewrite IH.
Qed.
Lemma set_del_other : forall {A} k k' (v : A) d, k <> k' -> del k' (set k v d) = set k v (del k' d).
Proof.
  intros A k k' v d N. unfold del. induction d as [|[k2 v2] r IH]; simpl.
  - destruct (String.eqb_spec k' k); [congruence|]. reflexivity.
  - destruct (String.eqb_spec k k2) as [->|E]; simpl.
    + destruct (String.eqb_spec k' k2); [congruence|]. simpl. now rewrite String.eqb_refl.
    + destruct (String.eqb_spec k' k2); simpl; [apply IH|]. destruct (String.eqb_spec k k2); [congruence|]. now rewrite IH.
Qed.
Lemma del_cons : forall {A} k k2 (v : A) r, del k ((k2, v) :: r) = if String.eqb k k2 then del k r else (k2, v) :: del k r.
Proof. intros. unfold del. simpl. now destruct (String.eqb k k2). Qed.
Lemma del_merge : forall {A} k (e d : dict A), del k (merge d e) = merge (del k d) (del k e).
Proof.
  intros A k e. induction e as [|[k2 v2] r IH]; intro d; [reflexivity|].
  change (merge d ((k2, v2) :: r)) with (merge (set k2 v2 d) r). rewrite IH, del_cons.
  destruct (String.eqb_spec k k2) as [->|E].
  - now rewrite set_del_same.
  - now rewrite set_del_other by congruence.
Qed.
Lemma rest_merge : forall d e, rest_of (merge d e) = merge (rest_of d) (rest_of e).
Proof. intros. unfold rest_of. now rewrite !del_merge. Qed.
Lemma rest_nodup : forall d, NoDup (map fst d) -> NoDup (map fst (rest_of d)).
Proof. intros d N. unfold rest_of. now repeat apply del_nodup. Qed.

(** ** update *)
Definition pick (k : string) (d : dict obj) (x : obj) : obj := match get k d with Some v => v | None => x end.
Lemma update_eq : forall s d, fst (state_update s d) =
  bind (set_params (pick "params" d (OParams (s_params s)))) (fun t =>
    Ok (State (pick "kernel" d (s_kernel s)) (pick "mean_function" d (s_mean s)) t (norm (merge (s_register s) (rest_of d))))).
Proof. reflexivity. Qed.
Lemma set_own_params : forall s, state_ok s -> set_params (OParams (s_params s)) = Ok (s_params s).
Proof. intros s [[K E] [S _]]. rewrite set_params_ok by auto. now rewrite sorted_canon. Qed.
Lemma copy_id : forall s, state_ok s -> state_copy s = Ok s.
Proof.
  intros s S. unfold state_copy. rewrite update_eq. unfold pick. simpl get. cbn iota. rewrite set_own_params by auto. simpl.
  unfold rest_of. simpl. unfold merge. simpl. rewrite norm_id; [now destruct s|].
  destruct S as [_ [_ [_ [F _]]]]. eapply Forall_impl; [|exact F]. intros kv J. apply J.
Qed.
Lemma update_update : forall s d1 d2 s1, state_ok s -> dict_ok d1 -> dict_ok d2 ->
  fst (state_update s d1) = Ok s1 -> fst (state_update s1 d2) = fst (state_update s (merge d1 d2)).
Proof.
  intros s d1 d2 s1 S D1 D2 H. pose proof (state_update_ok _ _ _ S (proj2 D1) H) as S1.
  rewrite update_eq in H. apply bind_ok in H. destruct H as [t [T H]]. inversion H as [H']. clear H.
  rewrite !update_eq. rewrite H'.
  assert (G : forall k, get k (merge d1 d2) = match get k d2 with Some v => Some v | None => get k d1 end).
  { intro k. apply get_merge. apply D2. }
  rewrite rest_merge. rewrite <- merge_assoc by (apply rest_nodup; apply D1).
  assert (R : norm (merge (s_register s1) (rest_of d2)) = norm (merge (merge (s_register s) (rest_of d1)) (rest_of d2))).
  { rewrite <- H'. cbn [s_register]. apply norm_merge_l. }
  rewrite R. unfold pick. rewrite !G.
  assert (K1 : s_kernel s1 = pick "kernel" d1 (s_kernel s)) by (rewrite <- H'; reflexivity).
  assert (K2 : s_mean s1 = pick "mean_function" d1 (s_mean s)) by (rewrite <- H'; reflexivity).
  assert (K3 : s_params s1 = t) by (rewrite <- H'; reflexivity).
  unfold pick in K1, K2.
  assert (P : set_params match get "params" d2 with Some v => v | None => OParams (s_params s1) end =
    set_params match match get "params" d2 with Some v => Some v | None => get "params" d1 end with
      Some v => v | None => OParams (s_params s) end).
  { destruct (get "params" d2); [reflexivity|]. rewrite set_own_params by auto. rewrite K3. unfold pick in T. symmetry. exact T. }
  rewrite P, K1, K2. match goal with |- bind ?x _ = _ => destruct x; [|reflexivity] end. simpl. do 2 f_equal; [now destruct (get "kernel" d2)|now destruct (get "mean_function" d2)].
Qed.
Lemma stored_as_attr : forall o, stored o (as_attr o).
Proof. destruct o; simpl; auto. unfold as_attr. simpl. now destruct (numeric_dtype (a_dtype a)). Qed.

(** ** histories *)
Lemma phistory_ok : forall sample os p, param_ok p -> param_ok (phistory sample os p).
Proof.
  intros sample os. induction os as [|o r IH]; intros p H; [exact H|]. simpl. apply IH.
  destruct (pstep sample o p) as [p'|e] eqn:E; [|exact H]. destruct o; cbn [pstep] in E.
  - exact (param_update_sound _ _ _ E).
  - exact (param_update_sound _ _ _ E).
  - exact (mk_param_sound _ _ _ E).
  - exact (param_update_sound _ _ _ E).
Qed.
Lemma mapM_F2 : forall {A B} (f : A -> result B) l bs, mapM f l = Ok bs -> Forall2 (fun a b => f a = Ok b) l bs.
Proof.
  intros A B f l. induction l as [|a r IH]; intros bs H; simpl in H; [inversion H; constructor|].
  apply bind_ok in H. destruct H as [b [Hb H]]. apply bind_ok in H. destruct H as [bs' [Hbs H]]. inversion H; subst. constructor; auto.
Qed.
Lemma tree_unflatten_tree_ok : forall t vs t', ptree_ok t -> tree_unflatten (tree_def t) vs = Ok t' -> ptree_ok t'.
Proof.
  intros t vs t' H E. destruct (tree_unflatten_ok _ _ (tree_unflatten_inv _ _ _ E)) as [t2 [E2 [M [_ O]]]].
  rewrite E in E2. inversion E2; subst t2. split; auto. rewrite <- (kd_map (option_map p_meta)), M. unfold tree_def.
  apply kd_map. now apply ptree_ok_canon.
Qed.
Lemma undump_ok : forall v, obj_ok (undump v).
Proof.
  intros [a|o]; simpl.
  - destruct a as [[|n s] [| | | |x] [|b [|b' r]]]; simpl; auto.
  - now destruct o.
Qed.
Lemma merge_single_ok : forall t opt, ptree_ok t -> Forall (fun kv => obj_ok (snd kv)) opt ->
  Forall (fun kv => obj_ok (snd kv)) (merge [("params", OParams t)] opt).
Proof. intros t opt T O. apply merge_forall; auto. Qed.
Lemma load_state_ok : forall interned s c s', state_ok s -> load_dict interned s c = Ok s' -> state_ok s'.
Proof.
  intros interned s c s' S H.
  unfold load_dict in H. apply bind_ok in H. destruct H as [dd [_ H]]. destruct (get "params" dd) as [dp|]; [|discriminate].
    cbv zeta in H. match type of H with (if ?b then _ else _) = _ => destruct b; [|discriminate] end.
    apply bind_ok in H. destruct H as [ps' [Hps H]]. apply bind_ok in H. destruct H as [[t rest] [Ht H]]. apply bind_ok in H.
    destruct H as [aux [Ha H]]. cbn [fst] in H. eapply state_update_ok; [exact S| |exact H]. apply merge_single_ok.
    + apply mapM_F2 in Hps. destruct (fill_inv _ _ _ _ _ Ht) as [u [U1 [U2 [U3 U4]]]]. split.
      * subst t. apply kd_map. assert (K : keys_distinct (tree_def (s_params s))) by (unfold tree_def; apply kd_map, ptree_ok_canon; apply S).
        rewrite U1 in K. now apply kd_map in K.
      * assert (F : Forall param_ok ps').
        { clear - Hps. induction Hps; constructor; auto. destruct x as [p [a|o]]; [|discriminate].
          cbn [fst snd update_value] in H. eapply param_update_sound; eauto. }
        subst. apply every_map. apply every_leaves. apply every_leaves in U4. rewrite Forall_app in F. destruct F as [F _].
        clear - F U4. induction (tleaves u) as [|[[[a b] c]|] l IH]; [constructor| |].
        -- unfold somes in F. simpl in F. inversion F; subst. inversion U4; subst. inversion H3; subst. constructor; auto.
        -- inversion U4; subst. constructor; [exact I|auto].
    + apply mapM_F2 in Ha. clear - Ha. induction Ha; constructor; auto. destruct x as [k [v|l2]]; [|discriminate].
      unfold undump_tree in H. simpl in H. inversion H; subst. apply undump_ok.
Qed.
Lemma sstep_ok : forall interned sample o s s', state_ok s -> sop_ok o -> sstep interned sample o s = Ok s' -> state_ok s'.
Proof.
  intros interned sample o s s' S O H. destruct o; cbn [sstep sop_ok] in H, O.
  - exact (state_update_ok s d s' S (proj2 O) H).
  - rewrite copy_id in H by auto. inversion H; now subst.
  - unfold state_unflatten, state_flatten in H. cbn [snd] in H. apply bind_ok in H. destruct H as [t [T H]].
    eapply mk_state_ok; [| | | |exact H]; try apply S; [|now apply register_ok].
    simpl. eapply tree_unflatten_tree_ok; eauto. apply S.
  - unfold randomize in H. rewrite copy_id in H by auto. cbn [bind] in H. cbv zeta in H. apply bind_ok in H. destruct H as [t [T H]].
    eapply state_update_ok; [exact S| |exact H]. apply merge_single_ok; [|apply O]. eapply tree_unflatten_tree_ok; eauto. apply S.
  - unfold transform in H. apply bind_ok in H. destruct H as [f [_ H]]. apply bind_ok in H. destruct H as [t [T H]].
    eapply state_update_ok; [exact S| |exact H]. constructor; [|constructor]. simpl. eapply tree_unflatten_tree_ok; eauto. apply S.
  - eapply load_state_ok; eauto.
Qed.
Lemma shistory_ok : forall interned sample os s, state_ok s -> Forall sop_ok os -> state_ok (shistory interned sample os s).
Proof.
  intros interned sample os. induction os as [|o r IH]; intros s H O; [exact H|]. inversion O; subst. simpl. apply IH; auto.
  destruct (sstep interned sample o s) eqn:E; [|exact H]. eapply sstep_ok; eauto.
Qed.

(** ** pytree round trip *)
Lemma tree_def_of : forall t t', sorted t -> map_tree (option_map p_meta) t' = tree_def t -> sorted t' /\ tree_def t' = tree_def t.
Proof.
  intros t t' S M. assert (S' : sorted t').
  { assert (X : sorted (map_tree (option_map p_meta) t')) by (rewrite M; unfold tree_def; apply sorted_map; now rewrite sorted_canon).
    clear - X. revert X. induction t' as [a|l IH] using tree_ind'; intro X; [exact I|].
    rewrite map_node in X. apply sorted_node in X. rewrite vmap_keys, Forall_vmap in X. destruct X as [X1 X2]. apply sorted_node. split; auto.
    cbn [snd] in X2. rewrite Forall_forall in IH, X2. apply Forall_forall. intros kv Hkv. exact (IH kv Hkv (X2 kv Hkv)). }
  split; auto. unfold tree_def at 1. rewrite sorted_canon by auto. exact M.
Qed.
Lemma defs_metas : forall t, defs (tree_def t) = metas t.
Proof. intro t. unfold defs, tree_def, metas, params_of. now rewrite tleaves_map, somes_map. Qed.
Lemma rebuild_ok : forall t vs, ptree_ok t -> sorted t -> Forall2 fits (metas t) vs ->
  exists t', tree_unflatten (tree_def t) vs = Ok t' /\ ptree_ok t' /\ sorted t' /\ tree_def t' = tree_def t /\ tree_values t' = vs.
Proof.
  intros t vs T S F. rewrite <- defs_metas in F. destruct (tree_unflatten_ok _ _ F) as [t' [E [M [V O]]]].
  destruct (tree_def_of t t' S M) as [S' D]. exists t'. split; auto. split; [eapply tree_unflatten_tree_ok; eauto|].
  split; auto. split; auto. unfold tree_values, params_of. now rewrite sorted_canon.
Qed.
Lemma state_rebuild : forall s vs, state_ok s -> Forall2 fits (metas (s_params s)) vs ->
  exists s', state_unflatten (snd (state_flatten s)) vs = Ok s' /\ s_kernel s' = s_kernel s /\ s_mean s' = s_mean s /\
    s_register s' = s_register s /\ tree_def (s_params s') = tree_def (s_params s) /\ tree_values (s_params s') = vs.
Proof.
  intros s vs S F. destruct (rebuild_ok (s_params s) vs) as [t' [E [T [St [D V]]]]]; try apply S; auto.
  unfold state_flatten, state_unflatten. cbn [snd]. rewrite E. cbn [bind]. rewrite mk_state_eq, set_params_ok by apply T.
  rewrite sorted_canon by auto. simpl. eexists. split; [reflexivity|]. simpl. repeat split; auto.
  apply norm_id. destruct S as [_ [_ [_ [R _]]]]. eapply Forall_impl; [|exact R]. intros kv J. apply J.
Qed.
Lemma ptree_eq : forall t t', sorted t -> sorted t' -> tree_def t = tree_def t' -> tree_values t = tree_values t' -> t = t'.
Proof.
  intros t t' S S' D V. unfold tree_def, tree_values, params_of in *. rewrite !sorted_canon in * by auto. now apply tree_eq.
Qed.
Lemma own_fits : forall s, state_ok s -> Forall2 fits (metas (s_params s)) (tree_values (s_params s)).
Proof. intros s S. rewrite <- defs_metas. apply opt_ok_fits. apply S. Qed.
Lemma state_roundtrip : forall s, state_ok s -> state_unflatten (snd (state_flatten s)) (fst (state_flatten s)) = Ok s.
Proof.
  intros s S. destruct (state_rebuild s (tree_values (s_params s)) S (own_fits s S)) as [s' [E [E1 [E2 [E3 [E4 E5]]]]]].
  unfold state_flatten in *. cbn [fst snd] in *. rewrite E. f_equal.
  assert (S' : state_ok s') by (eapply (sstep_ok (fun _ => false) (fun _ _ => Arr [] F64 []) (SRebuild (tree_values (s_params s)))); eauto; exact I).
  destruct s as [k m t r], s' as [k' m' t' r']. simpl in *. subst. f_equal. apply ptree_eq; auto; [apply S'|apply S].
Qed.
Lemma state_rebuild_err : forall s vs, ~ Forall2 fits (metas (s_params s)) vs -> state_unflatten (snd (state_flatten s)) vs = Err ValueError.
Proof.
  intros s vs H. unfold state_flatten, state_unflatten. cbn [snd]. rewrite tree_unflatten_err; [reflexivity|]. now rewrite defs_metas.
Qed.
