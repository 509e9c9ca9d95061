(** Loading files that do not match; randomize; transform. *)
From Coq Require Import String List Bool Arith Reals Permutation Lia.
From Verif Require Import Model.PyDict Model.Bijectors Model.Params Model.State Spec.DictSpec Spec.StateSpec Spec.BijectorSpec Spec.RandomSpec
  Proofs.BijectorLemmas Proofs.DictFacts Proofs.TreeFacts Proofs.StateFacts Proofs.UpdateFacts Proofs.SaveLoad.
Import ListNotations.
Open Scope string_scope.
Open Scope nat_scope.

(** ** load *)
Lemma get_merge_out : forall {A} k (e d : dict A), ~ In k (map fst e) -> get k (merge d e) = get k d.
Proof.
  intros A k e. induction e as [|[k' v] r IH]; intros d H; [reflexivity|]. change (merge d ((k', v) :: r)) with (merge (set k' v d) r).
  simpl in H. rewrite IH by tauto. apply get_set_other. intros ->. tauto.
Qed.
Lemma mapM_update : forall ps fs ps', length fs = length ps ->
  mapM (fun x => update_value (fst x) (snd x)) (zip ps fs) = Ok ps' ->
  exists vs, fs = map FArr vs /\ Forall2 (fun p v => fits (p_meta p) v) ps vs /\ ps' = map (fun x => Param (snd x) (p_meta (fst x))) (zip ps vs).
Proof.
  induction ps as [|p ps IH]; intros [|f fs] ps' L H; try discriminate; cbn [zip] in H.
  - inversion H; subst. exists []. repeat split; constructor.
  - cbn [mapM fst snd] in H. apply bind_ok in H. destruct H as [p' [H1 H]]. apply bind_ok in H. destruct H as [ps2 [H2 H]]. inversion H; subst.
    destruct f as [a|o]; [|discriminate]. unfold update_value in H1. rewrite param_set_value in H1. apply mk_param_ok in H1. destruct H1 as [F ->].
    destruct (IH fs ps2) as [vs [-> [V1 ->]]]; [simpl in L; lia|exact H2|]. exists (a :: vs). repeat split; auto.
Qed.
Lemma load_inv : forall interned s c s', state_ok s -> load_dict interned s c = Ok s' ->
  exists dd dp vs, unflatten_dict interned c = Ok dd /\ get "params" dd = Some dp /\ tleaves (canon dp) = map FArr vs /\
    Forall2 fits (metas (s_params s)) vs /\ tree_values (s_params s') = vs /\ tree_def (s_params s') = tree_def (s_params s).
Proof.
  intros interned s c s' S H. unfold load_dict in H. apply bind_ok in H. destruct H as [dd [U H]].
  destruct (get "params" dd) as [dp|] eqn:G; [|discriminate]. cbv zeta in H.
  destruct (Nat.eqb _ _) eqn:L in H; [|discriminate]. apply Nat.eqb_eq in L.
  apply bind_ok in H. destruct H as [ps' [Hps H]]. apply bind_ok in H. destruct H as [[q rest] [Hq H]]. apply bind_ok in H.
  destruct H as [aux [Ha H]]. cbn [fst] in H.
  destruct (mapM_update _ _ _ L Hps) as [vs [E1 [E2 E3]]].
  assert (F : Forall2 fits (metas (s_params s)) vs) by (unfold metas; apply F2_map_l; exact E2).
  destruct (load_fill (s_params s) vs) as [t' [Ft [T1 [T2 [T3 T4]]]]]; try apply S; auto.
  rewrite E3, Ft in Hq. inversion Hq; subst q rest. exists dd, dp, vs. repeat (split; [assumption|]).
  rewrite update_eq in H. apply bind_ok in H. destruct H as [t2 [P H]]. inversion H as [H']. clear H.
  cbn [s_params].
  assert (NA : ~ In "params" (map fst aux)).
  { apply mapM_F2 in Ha. intro J. apply in_map_iff in J. destruct J as [x [Ex Hx]].
    assert (K : In "params" (map fst (del "params" dd))).
    { clear - Ha Ex Hx. induction Ha as [|a b la lb Hab Ha IH]; [destruct Hx|]. simpl. destruct Hx as [->|Hx]; [|right; auto].
      left. destruct a as [k [v|l]]; [|discriminate]. unfold undump_tree in Hab. simpl in Hab. inversion Hab; subst. exact Ex. }
    now apply del_forall_keys in K. }
  unfold pick in P. rewrite get_merge_out in P by auto. cbn [get] in P. rewrite String.eqb_refl in P.
  rewrite set_params_ok in P by apply T1. rewrite sorted_canon in P by auto. inversion P; subst t2. auto.
Qed.
Lemma load_count : forall interned s c dd dp, unflatten_dict interned c = Ok dd -> get "params" dd = Some dp ->
  length (tleaves dp) <> length (params_of (s_params s)) -> load_dict interned s c = Err ValueError.
Proof.
  intros interned s c dd dp U G N. unfold load_dict. rewrite U. cbn [bind]. rewrite G. cbv zeta.
  destruct (Nat.eqb _ _) eqn:L; [|reflexivity]. apply Nat.eqb_eq in L. exfalso. apply N. rewrite <- L.
  assert (C : forall A (t : tree A), length (tleaves (canon t)) = length (tleaves t)); [|symmetry; apply C].
  clear. intros A t. induction t as [a|l IH] using tree_ind'; [reflexivity|]. rewrite canon_node, !tleaves_node.
  transitivity (length (flat_map (fun kv => tleaves (snd kv)) (vmap canon l))).
  - apply Permutation_length. apply Permutation_flat_map. apply sort_perm.
  - unfold vmap. clear -IH. induction l as [|[k s] r IHr]; [reflexivity|]. inversion IH; subst. simpl. rewrite !app_length, IHr by auto.
    cbn [snd] in *. now rewrite H1.
Qed.
Lemma load_misfit : forall interned s c dd dp vs, unflatten_dict interned c = Ok dd -> get "params" dd = Some dp ->
  tleaves (canon dp) = map FArr vs -> ~ Forall2 fits (metas (s_params s)) vs -> load_dict interned s c = Err ValueError.
Proof.
  intros interned s c dd dp vs U G V N. unfold load_dict. rewrite U. cbn [bind]. rewrite G. cbv zeta. rewrite V, map_length.
  destruct (Nat.eqb _ _) eqn:L; [|reflexivity]. apply Nat.eqb_eq in L.
  assert (M : mapM (fun x => update_value (fst x) (snd x)) (zip (params_of (s_params s)) (map FArr vs)) = Err ValueError); [|now rewrite M].
  unfold metas in N. rewrite F2_map_l in N. clear -L N. revert vs L N. induction (params_of (s_params s)) as [|p ps IH]; intros [|v vs] L N; try discriminate.
  - exfalso. apply N. constructor.
  - cbn [map zip mapM fst snd]. unfold update_value at 1. rewrite param_set_value. destruct (mk_param_spec v (p_meta p)) as [[F ->]|[F ->]]; [|reflexivity].
    cbn [bind]. rewrite IH; [reflexivity|simpl in L; lia|]. intro H. apply N. constructor; auto.
Qed.
Lemma load_by_position : forall interned s c c' dd dd' dp dp',
  unflatten_dict interned c = Ok dd -> unflatten_dict interned c' = Ok dd' -> get "params" dd = Some dp -> get "params" dd' = Some dp' ->
  tleaves (canon dp) = tleaves (canon dp') -> del "params" dd = del "params" dd' -> load_dict interned s c = load_dict interned s c'.
Proof. intros. unfold load_dict. rewrite H, H0. cbn [bind]. now rewrite H1, H2, H3, H4. Qed.

(** ** randomize *)
Lemma randomize_values_spec : forall sample ps k, Forall2 (drawn sample) ps (fst (randomize_values sample k ps)).
Proof.
  intros sample ps. induction ps as [|p r IH]; intro k; simpl; [constructor|]. destruct (m_trainable (p_meta p)) eqn:E; simpl.
  - constructor; [|apply IH]. unfold drawn. rewrite E. eauto.
  - constructor; [|apply IH]. unfold drawn. now rewrite E.
Qed.
Lemma drawn_fits : forall sample p v, sampler_ok sample -> param_ok p -> (m_trainable (p_meta p) = true -> float_meta (p_meta p)) ->
  drawn sample p v -> fits (p_meta p) v.
Proof.
  intros sample p v SO P F D. unfold drawn in D. destruct (m_trainable (p_meta p)); [|subst; exact P].
  destruct D as [k ->]. destruct (SO k (m_prior (p_meta p))) as [A1 [A2 _]]. unfold fits, forward_arr. simpl. rewrite A1, A2. split; auto. exact (F eq_refl).
Qed.
(** a tree filled with new values, seen by name *)
Lemma rebuild_by_name : forall (R : param -> array -> Prop) t vs, ptree_ok t -> sorted t -> Forall2 R (params_of t) vs ->
  (forall p v, R p v -> param_ok p -> fits (p_meta p) v) ->
  exists t', tree_unflatten (tree_def t) vs = Ok t' /\ ptree_ok t' /\ sorted t' /\ same_names t' t /\ tree_def t' = tree_def t /\ tree_values t' = vs /\
    forall path, match lookup path t with
      | Some (Some p) => exists v, R p v /\ lookup path t' = Some (Some (Param v (p_meta p)))
      | o => lookup path t' = o end.
Proof.
  intros R t vs T St F RF.
  assert (O : Forall param_ok (params_of t)).
  { destruct T as [_ E]. apply every_canon, every_leaves in E. unfold params_of. clear -E. induction (tleaves (canon t)) as [|[p|] r IH]; [constructor| |inversion E; now apply IH].
    inversion E; subst. unfold somes. simpl. constructor; [exact H1|now apply IH]. }
  assert (FF : Forall2 fits (metas t) vs).
  { unfold metas. apply F2_map_l. clear -F O RF. induction F; constructor; inversion O; subst; auto. }
  destruct (rebuild_ok t vs T St FF) as [t' [E [T' [S' [D V]]]]]. exists t'. repeat (split; [assumption|]).
  assert (L : length vs = length (somes (tleaves t))).
  { apply F2_length in F. unfold params_of in F. rewrite sorted_canon in F by auto. auto. }
  destruct (tree_zip t vs L) as [u [U1 U2]].
  assert (E' : t' = map_tree (option_map (fun x => Param (snd x) (p_meta (fst x)))) u).
  { apply tree_eq.
    - unfold tree_def in D. rewrite !sorted_canon in D by auto. rewrite D, <- U1, !map_map_tree. apply map_tree_ext, every_all. now intros [[]|].
    - unfold tree_values, params_of in V. rewrite sorted_canon in V by auto. rewrite V, tleaves_map, somes_map, map_map. exact (eq_sym U2). }
  split.
  { unfold same_names. rewrite E', <- U1, !map_map_tree. reflexivity. }
  split; auto. split; auto.
  assert (RU : every (fun o => match o with Some x => R (fst x) (snd x) | None => True end) u).
  { apply every_leaves. unfold params_of in F. rewrite sorted_canon in F by auto. rewrite <- U1, <- U2, tleaves_map, somes_map in F. clear -F.
    induction (tleaves u) as [|[x|] r IH]; [constructor| |constructor; [exact I|auto]].
    unfold somes in F. simpl in F. inversion F; subst. constructor; auto. }
  intro path.
  assert (LT : lookup path t = option_map (option_map fst) (lookup path u)) by (rewrite <- lookup_map; now rewrite U1).
  rewrite LT.
  assert (RL : forall x, lookup path u = Some (Some x) -> R (fst x) (snd x)).
  { clear -RU. revert path. induction u as [a|l IH] using tree_ind'; intros path x Hx.
    - destruct path; [|discriminate]. simpl in Hx. inversion Hx; subst. exact RU.
    - destruct path as [|k r]; [discriminate|]. simpl in Hx. destruct (get k l) as [s|] eqn:G; [|discriminate].
      apply get_in in G. apply every_node in RU. rewrite Forall_forall in IH, RU. exact (IH _ G (RU _ G) _ _ Hx). }
  destruct (lookup path u) as [[x|]|] eqn:Lu; cbn [option_map].
  - exists (snd x). split; [now apply RL|]. rewrite E', lookup_map, Lu. reflexivity.
  - rewrite E', lookup_map, Lu. reflexivity.
  - rewrite E', lookup_map, Lu. reflexivity.
Qed.
Lemma randomize_ok : forall sample s k opt, state_ok s -> sampler_ok sample -> float_params (s_params s) -> dict_ok opt -> get "params" opt = None ->
  exists s', randomize sample s k opt = Ok s' /\ s_kernel s' = pick "kernel" opt (s_kernel s) /\ s_mean s' = pick "mean_function" opt (s_mean s) /\
    s_register s' = norm (merge (s_register s) (rest_of opt)) /\ same_names (s_params s') (s_params s) /\
    tree_values (s_params s') = fst (randomize_values sample k (params_of (s_params s))) /\ tree_def (s_params s') = tree_def (s_params s) /\
    sorted (s_params s') /\
    forall path, match lookup path (s_params s) with
      | Some (Some p) => exists v, drawn sample p v /\ lookup path (s_params s') = Some (Some (Param v (p_meta p)))
      | o => lookup path (s_params s') = o end.
Proof.
  intros sample s k opt S SO FP OK NP. unfold randomize. rewrite copy_id by auto. cbn [bind]. cbv zeta.
  set (R := fun p v => drawn sample p v /\ (m_trainable (p_meta p) = true -> float_meta (p_meta p))).
  assert (FR : Forall2 R (params_of (s_params s)) (fst (randomize_values sample k (params_of (s_params s))))).
  { pose proof (randomize_values_spec sample (params_of (s_params s)) k) as F. unfold float_params, on_trainable in FP. apply every_canon, every_leaves in FP.
    assert (G : Forall (fun p => m_trainable (p_meta p) = true -> float_meta (p_meta p)) (params_of (s_params s))).
    { unfold params_of. clear -FP. induction (tleaves (canon (s_params s))) as [|[p|] r IH]; [constructor| |inversion FP; now apply IH].
      inversion FP; subst. unfold somes. simpl. constructor; [exact H1|now apply IH]. }
    revert F G. generalize (fst (randomize_values sample k (params_of (s_params s)))). clear. intros vs F G.
    induction F; [constructor|]. inversion G; subst. constructor; [split; auto|auto]. }
  destruct (rebuild_by_name R (s_params s) _ (proj1 S) (proj1 (proj2 S)) FR) as [t' [E [T1 [T2 [T3 [T4 [T5 T6]]]]]]].
  { intros p v [D F] P. eapply drawn_fits; eauto. }
  rewrite E. cbn [bind]. rewrite update_eq.
  assert (G : forall k, k <> "params" -> get k (merge [("params", OParams t')] opt) = get k opt).
  { intros k' Hk. rewrite get_merge by apply OK. simpl. destruct (String.eqb_spec k' "params"); [congruence|]. now destruct (get k' opt). }
  assert (GP : get "params" (merge [("params", OParams t')] opt) = Some (OParams t')).
  { rewrite get_merge by apply OK. rewrite NP. reflexivity. }
  unfold pick. rewrite GP, (G "kernel"), (G "mean_function") by discriminate. rewrite set_params_ok by apply T1. rewrite sorted_canon by auto. cbn [bind].
  eexists. split; [reflexivity|]. cbn [s_kernel s_mean s_register s_params]. split; auto. split; auto. split.
  { f_equal. f_equal. rewrite rest_merge. unfold rest_of at 1. rewrite !del_cons. cbn [String.eqb]. simpl. 
    unfold merge. rewrite fold_set_app; [reflexivity|]. simpl. apply rest_nodup. apply OK. }
  repeat (split; [assumption|]). intro path. specialize (T6 path). destruct (lookup path (s_params s)) as [[p|]|]; auto.
  destruct T6 as [v [[D _] Lv]]. eauto.
Qed.
Lemma randomize_values_indep : forall sample ps ps' k,
  Forall2 (fun p p' => p_meta p = p_meta p' /\ (m_trainable (p_meta p) = false -> p_value p = p_value p')) ps ps' ->
  randomize_values sample k ps = randomize_values sample k ps'.
Proof.
  intros sample ps ps' k H. revert k. induction H as [|p p' ps ps' [M V] H IH]; intro k; [reflexivity|]. simpl. rewrite <- M.
  destruct (m_trainable (p_meta p)) eqn:E; rewrite IH; [reflexivity|]. now rewrite V.
Qed.

(** ** keys *)
Lemma right_shift : forall n k, right n (SplitR k) = SplitR (right n k).
Proof. induction n as [|n IH]; intro k; [reflexivity|]. simpl. now rewrite IH. Qed.
Fixpoint ksize (k : key) : nat := match k with Key _ => 0 | SplitL k | SplitR k => S (ksize k) end.
Lemma right_size : forall n k, ksize (right n k) = n + ksize k.
Proof. induction n as [|n IH]; intro k; simpl; auto. Qed.
Lemma right_inj : forall n m k, right n k = right m k -> n = m.
Proof. intros n m k H. apply (f_equal ksize) in H. rewrite !right_size in H. lia. Qed.
Definition ntrain (ps : list param) : nat := length (filter (fun p => m_trainable (p_meta p)) ps).
Lemma rkeys : forall sample ps k, snd (randomize_values sample k ps) = map (fun j => right (S j) k) (seq 0 (ntrain ps)).
Proof.
  intros sample ps. unfold ntrain. induction ps as [|p r IH]; intro k; [reflexivity|]. simpl. destruct (m_trainable (p_meta p)); simpl; [|apply IH].
  rewrite IH. f_equal. rewrite <- seq_shift, map_map. apply map_ext. intro j. cbn [right]. now rewrite right_shift.
Qed.
Lemma rkeys_nodup : forall sample ps k, NoDup (snd (randomize_values sample k ps)).
Proof.
  intros. rewrite rkeys. apply FinFun.Injective_map_NoDup; [|apply seq_NoDup]. intros a b H. apply right_inj in H. lia.
Qed.
