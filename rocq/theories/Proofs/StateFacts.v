(** Facts on Parameter and ModelState. *)
From Coq Require Import String List Bool Arith Reals Permutation Lia.
From Verif Require Import Model.PyDict Model.Bijectors Model.Params Model.State Spec.StateSpec Proofs.DictFacts Proofs.TreeFacts.
Import ListNotations.
Open Scope string_scope.

(** ** Parameter *)
Lemma shape_eqb_eq : forall a b, shape_eqb a b = true <-> a = b.
Proof.
  induction a as [|x a IH]; intros [|y b]; simpl; split; intro H; try discriminate; auto.
  - apply andb_true_iff in H. destruct H as [H1 H2]. apply Nat.eqb_eq in H1. apply IH in H2. now subst.
  - inversion H; subst. rewrite Nat.eqb_refl. now apply IH.
Qed.
Lemma dtype_eqb_eq : forall a b, dtype_eqb a b = true <-> a = b.
Proof.
  intros [| | | |n] [| | | |m]; simpl; split; intro H; try discriminate; auto.
  - apply Nat.eqb_eq in H. now subst.
  - inversion H. apply Nat.eqb_refl.
Qed.
Lemma mk_param_spec : forall v m, (fits m v /\ mk_param v m = Ok (Param v m)) \/ (~ fits m v /\ mk_param v m = Err ValueError).
Proof.
  intros v m. unfold mk_param, fits. destruct (shape_eqb (a_shape v) (pr_shape (m_prior m))) eqn:E1.
  - apply shape_eqb_eq in E1. destruct (dtype_eqb (a_dtype v) (pr_dtype (m_prior m))) eqn:E2.
    + apply dtype_eqb_eq in E2. auto.
    + right. split; auto. intros [_ H]. apply dtype_eqb_eq in H. congruence.
  - right. split; auto. intros [H _]. apply shape_eqb_eq in H. congruence.
Qed.
Lemma mk_param_ok : forall v m p, mk_param v m = Ok p <-> fits m v /\ p = Param v m.
Proof.
  intros v m p. destruct (mk_param_spec v m) as [[F ->]|[F ->]]; split; intro H.
  - inversion H; auto.
  - destruct H; now subst.
  - discriminate.
  - tauto.
Qed.
Lemma fits_dec : forall m v, fits m v \/ ~ fits m v.
Proof. intros m v. destruct (mk_param_spec v m); tauto. Qed.
Lemma param_eta : forall p, Param (p_value p) (p_meta p) = p.
Proof. now intros []. Qed.
Lemma meta_eta : forall m, Meta (m_trainable m) (m_bijector m) (m_prior m) = m.
Proof. now intros []. Qed.

(** every successful operation returns a parameter that fits its prior *)
Lemma mk_param_sound : forall v m p, mk_param v m = Ok p -> param_ok p.
Proof. intros v m p H. apply mk_param_ok in H. destruct H as [F ->]. exact F. Qed.
Lemma bind_ok : forall {A B} (r : result A) (f : A -> result B) b, bind r f = Ok b -> exists a, r = Ok a /\ f a = Ok b.
Proof. intros A B [a|e] f b H; [eauto|discriminate]. Qed.
Lemma param_update_sound : forall p d p', fst (param_update p d) = Ok p' -> param_ok p'.
Proof.
  intros p d p' H. unfold param_update in H. cbn [fst] in H.
  apply bind_ok in H. destruct H as [v [_ H]]. apply bind_ok in H. destruct H as [t [_ H]].
  apply bind_ok in H. destruct H as [b [_ H]]. apply bind_ok in H. destruct H as [pr [_ H]].
  now apply mk_param_sound in H.
Qed.
Lemma param_set_value : forall p v, fst (param_update p [("value", PArr v)]) = mk_param v (p_meta p).
Proof. intros [v0 m] v. unfold param_update. simpl. now rewrite meta_eta. Qed.

Lemma F2_length : forall {A B} (P : A -> B -> Prop) l m, Forall2 P l m -> length l = length m.
Proof. intros A B P l m H. induction H; simpl; auto. Qed.
(** ** tree definitions *)
Definition defs (d : tree (option meta)) : list meta := somes (tleaves d).
Lemma tree_unflatten_ok : forall d vs, Forall2 fits (defs d) vs ->
  exists t, tree_unflatten d vs = Ok t /\ map_tree (option_map p_meta) t = d /\
    map p_value (somes (tleaves t)) = vs /\ every opt_ok t.
Proof.
  intros d vs H. assert (L : length vs = length (defs d)) by (symmetry; eapply F2_length; eauto).
  destruct (tree_zip d vs L) as [u [U1 U2]].
  set (w := map_tree (option_map (fun x => (fst x, snd x, Param (snd x) (fst x)))) u).
  assert (W1 : map_tree (option_map (fun x : meta * array * param => fst (fst x))) w = d).
  { unfold w. rewrite map_map_tree, <- U1. apply map_tree_ext, every_all. now intros [[]|]. }
  assert (W2 : map (fun x : meta * array * param => snd (fst x)) (somes (tleaves w)) = vs).
  { unfold w. rewrite tleaves_map, somes_map, map_map, <- U2. reflexivity. }
  assert (F : Forall (fun x => fits (fst x) (snd x)) (somes (tleaves u))).
  { unfold defs in H. rewrite <- U1, <- U2, tleaves_map, somes_map in H. clear - H.
    induction (somes (tleaves u)) as [|x l IH]; [constructor|]. simpl in H. inversion H; subst. constructor; auto. }
  assert (E : every (fun o => match o with Some (a, b, c) => param_unflatten a b = Ok c | None => True end) w).
  { unfold w. apply every_map. apply every_leaves. clear - F.
    induction (tleaves u) as [|[x|] l IH]; [constructor| |constructor; simpl; auto].
    unfold somes in F. simpl in F. inversion F; subst. constructor; auto.
    simpl. unfold param_unflatten. now apply mk_param_ok. }
  pose proof (fill_triples param_unflatten w [] E) as G. rewrite W1, W2, app_nil_r in G.
  exists (map_tree (option_map snd) w). unfold tree_unflatten. rewrite G. cbn. split; [reflexivity|].
  unfold w. rewrite !map_map_tree. split; [|split].
  - rewrite <- U1. apply map_tree_ext, every_all. now intros [[]|].
  - rewrite tleaves_map, (map_ext _ (option_map (fun x => Param (snd x) (fst x)))) by (now intros [[]|]).
    rewrite somes_map, map_map. exact U2.
  - apply every_map. apply every_leaves. clear - F.
    induction (tleaves u) as [|[x|] l IH]; [constructor| |constructor; simpl; auto].
    unfold somes in F. simpl in F. inversion F; subst. constructor; auto.
Qed.
Lemma tree_unflatten_inv : forall d vs t, tree_unflatten d vs = Ok t -> Forall2 fits (defs d) vs.
Proof.
  intros d vs t H. unfold tree_unflatten in H. apply bind_ok in H. destruct H as [[t' rest] [H1 H2]].
  cbn [fst snd] in H2. destruct rest; [|discriminate]. inversion H2; subst.
  destruct (fill_inv _ _ _ _ _ H1) as [u [U1 [U2 [U3 U4]]]]. subst. rewrite app_nil_r. unfold defs.
  rewrite tleaves_map, somes_map. apply every_leaves in U4. clear - U4.
  induction (tleaves u) as [|[[[a b] c]|] l IH]; [constructor| |inversion U4; subst; now apply IH].
  inversion U4; subst. unfold somes. simpl. constructor; [|now apply IH].
  now apply mk_param_ok in H1.
Qed.
Lemma fill_err : forall {A B C} (mk : A -> B -> result C) e0, (forall a b e, mk a b = Err e -> e = e0) -> e0 = ValueError ->
  forall d vs e, fill mk d vs = Err e -> e = e0.
Proof.
  intros A B C mk e0 H Z. induction d as [[a|]|l IH] using tree_ind'; intros vs e E.
  - simpl in E. destruct vs as [|v r]; [congruence|]. destruct (mk a v) eqn:M; [discriminate|]. simpl in E. inversion E; subst. eauto.
  - discriminate.
  - rewrite fill_node in E.
    set (go := (fix go (l : list (string * tree (option A))) (vs : list B) :=
         match l with
         | [] => Ok ([], vs)
         | (k, s) :: r =>
             bind (fill mk s vs) (fun q =>
             bind (go r (snd q)) (fun q' => Ok ((k, fst q) :: fst q', snd q')))
         end)) in E.
    assert (G : forall vs e, go l vs = Err e -> e = e0).
    { clear E vs e. induction l as [|[k s] r IHr]; intros vs e E; [discriminate|].
      inversion IH as [|x y J1 J2]; subst. cbn [snd] in J1. simpl in E.
      destruct (fill mk s vs) as [q|e'] eqn:E1; [|simpl in E; inversion E; subst; eauto]. simpl in E.
      destruct (go r (snd q)) as [q'|e'] eqn:E2; [discriminate|]. simpl in E. inversion E; subst. eauto. }
    destruct (go l vs) eqn:E1; [discriminate|]. simpl in E. inversion E; subst. eauto.
Qed.
Lemma tree_unflatten_err : forall d vs, ~ Forall2 fits (defs d) vs -> tree_unflatten d vs = Err ValueError.
Proof.
  intros d vs H. destruct (tree_unflatten d vs) as [t|e] eqn:E; [exfalso; apply H; eapply tree_unflatten_inv; eauto|].
  unfold tree_unflatten in E. destruct (fill param_unflatten d vs) as [[t rest]|e'] eqn:E1.
  - cbn in E. destruct rest; [discriminate|]. congruence.
  - simpl in E. inversion E; subst. f_equal. eapply fill_err; [| |exact E1]; auto.
    intros a b e' M. unfold param_unflatten in M. destruct (mk_param_spec b a) as [[_ X]|[_ X]]; congruence.
Qed.

(** a tree is determined by its definition and its values *)
Lemma tree_eq : forall (t t' : ptree), map_tree (option_map p_meta) t = map_tree (option_map p_meta) t' ->
  map p_value (somes (tleaves t)) = map p_value (somes (tleaves t')) -> t = t'.
Proof.
  assert (G : forall (t t' : ptree) r r', map_tree (option_map p_meta) t = map_tree (option_map p_meta) t' ->
    (map p_value (somes (tleaves t)) ++ r = map p_value (somes (tleaves t')) ++ r')%list -> t = t' /\ r = r').
  { induction t as [[p|]|l IH] using tree_ind'; intros t' r r' H1 H2.
    - destruct t' as [[p'|]|l']; try discriminate. simpl in *. inversion H1; inversion H2.
      split; auto. do 2 f_equal. destruct p, p'. simpl in *. congruence.
    - destruct t' as [[p'|]|l']; try discriminate. simpl in *. auto.
    - destruct t' as [[p'|]|l']; try discriminate. rewrite !map_node in H1. rewrite !tleaves_node in H2. inversion H1 as [H3]. clear H1.
      assert (G : l = l' /\ r = r'); [|destruct G; subst; auto].
      revert l' r r' H2 H3. induction l as [|[k s] l IHl]; intros [|[k' s'] l'] r r' H2 H3; try discriminate; [auto|].
      inversion IH as [|x y J1 J2]; subst. cbn [snd] in J1. simpl in H3. inversion H3. simpl in H2.
      rewrite !somes_app, !map_app, <- !app_assoc in H2. destruct (J1 _ _ _ H1 H2) as [E1 E2].
      destruct (IHl J2 _ _ _ E2 H4) as [E3 E4]. subst. auto. }
  intros t t' H1 H2. destruct (G t t' [] [] H1); [now rewrite H2|auto].
Qed.

(** ** the setter of params *)
Lemma opt_ok_fits : forall t, every opt_ok t -> Forall2 fits (defs (tree_def t)) (tree_values t).
Proof.
  intros t H. unfold defs, tree_def, tree_values, params_of. rewrite tleaves_map, somes_map.
  apply every_canon, every_leaves in H. induction (tleaves (canon t)) as [|[p|] l IH]; [constructor| |inversion H; subst; now apply IH].
  inversion H; subst. unfold somes. simpl. constructor; [exact H2|]. now apply IH.
Qed.
Lemma set_params_ok : forall t, every opt_ok t -> set_params (OParams t) = Ok (canon t).
Proof.
  intros t H. simpl. destruct (tree_unflatten_ok _ _ (opt_ok_fits t H)) as [t' [E [E1 [E2 _]]]]. rewrite E. f_equal.
  apply tree_eq; [exact E1|exact E2].
Qed.
Lemma ptree_ok_canon : forall t, ptree_ok t -> ptree_ok (canon t) /\ sorted (canon t).
Proof.
  intros t [K E]. pose proof (canon_sorted t K) as S. repeat split; auto; [now apply sorted_distinct|]. now apply every_canon in E.
Qed.
Lemma set_params_inv : forall o t, obj_ok o -> set_params o = Ok t ->
  ptree_ok t /\ sorted t /\ t = match o with OParams t' => canon t' | _ => Leaf None end.
Proof.
  intros o t H E. destruct o; try discriminate; simpl in H.
  - inversion E; subst. repeat split; exact I.
  - destruct H as [K H]. rewrite set_params_ok in E by auto. inversion E; subst.
    destruct (ptree_ok_canon t0 (conj K H)). auto.
Qed.

(** ** __init__ *)
Lemma as_attr_not_raw : forall o, ~ is_raw (as_attr o).
Proof. destruct o; simpl; try tauto. unfold as_attr. simpl. destruct (numeric_dtype (a_dtype a)); simpl; tauto. Qed.
Lemma as_attr_id : forall o, ~ is_raw o -> as_attr o = o.
Proof. destruct o; simpl; try tauto. unfold as_attr. simpl. now destruct (numeric_dtype (a_dtype a)). Qed.
Lemma as_attr_obj_ok : forall o, obj_ok o -> obj_ok (as_attr o).
Proof. destruct o; simpl; auto. unfold as_attr. simpl. now destruct (numeric_dtype (a_dtype a)). Qed.
Definition norm (d : dict obj) : dict obj := vmap as_attr d.
Lemma norm_id : forall d, Forall (fun kv => ~ is_raw (snd kv)) d -> norm d = d.
Proof.
  intros d H. unfold norm. rewrite <- (vmap_id d) at 2. apply vmap_ext. eapply Forall_impl; [|exact H].
  intros kv J. now apply as_attr_id.
Qed.
Lemma mk_state_eq : forall k m p d, mk_state k m p d = bind (set_params p) (fun t => Ok (State k m t (norm d))).
Proof. reflexivity. Qed.
Lemma mk_state_ok : forall k m p d s, obj_ok k -> obj_ok m -> obj_ok p -> dict_ok d -> mk_state k m p d = Ok s -> state_ok s.
Proof.
  intros k m p d s Hk Hm Hp [N D] H. rewrite mk_state_eq in H. apply bind_ok in H. destruct H as [t [T H]]. inversion H; subst.
  apply set_params_inv in T; auto. destruct T as [T1 [T2 _]]. unfold state_ok, norm. simpl. rewrite vmap_keys.
  split; auto. split; auto. split; auto. split; auto. apply Forall_vmap. eapply Forall_impl; [|exact D].
  intros kv J. cbn [snd]. split; [now apply as_attr_obj_ok|apply as_attr_not_raw].
Qed.

(** ** dictionaries *)
Lemma fold_set_nodup : forall {A} (e d : dict A), NoDup (map fst d) -> NoDup (map fst (merge d e)).
Proof. intros A e. induction e as [|[k v] r IH]; intros d N; simpl; auto. apply IH. now apply set_nodup. Qed.
Lemma set_forall : forall {A} (P : string * A -> Prop) k v d, P (k, v) -> Forall P d -> Forall P (set k v d).
Proof.
  intros A P k v d Pk. induction d as [|[k' v'] r IH]; intro F; simpl; [auto|]. inversion F; subst.
  destruct (String.eqb k k') eqn:E; [|auto]. apply String.eqb_eq in E. subst. auto.
Qed.
Lemma merge_forall : forall {A} (P : string * A -> Prop) e d, Forall P d -> Forall P e -> Forall P (merge d e).
Proof.
  intros A P e. induction e as [|[k v] r IH]; intros d F E; simpl; auto. inversion E; subst. apply IH; auto. now apply set_forall.
Qed.
Lemma del_forall : forall {A} (P : string * A -> Prop) k d, Forall P d -> Forall P (del k d).
Proof. intros. unfold del. apply Forall_forall. intros x Hx. apply filter_In in Hx. rewrite Forall_forall in H. now apply H. Qed.
Lemma dict_ok_merge : forall d e, dict_ok d -> Forall (fun kv => obj_ok (snd kv)) e -> dict_ok (merge d e).
Proof. intros d e [N F] E. split; [now apply fold_set_nodup|now apply merge_forall]. Qed.
Lemma get_forall : forall {A} (P : A -> Prop) k d v, Forall (fun kv => P (snd kv)) d -> get k d = Some v -> P v.
Proof.
  intros A P k d v F. induction d as [|[k' v'] r IH]; simpl; [discriminate|]. inversion F; subst.
  destruct (String.eqb k k'); [intro H; inversion H; now subst|auto].
Qed.
Lemma register_ok : forall s, state_ok s -> dict_ok (s_register s).
Proof. intros s [_ [_ [N [F _]]]]. split; auto. eapply Forall_impl; [|exact F]. intros kv J. apply J. Qed.

(** ** update *)
Definition rest_of (d : dict obj) : dict obj := del "params" (del "mean_function" (del "kernel" d)).
Lemma state_update_ok : forall s d s', state_ok s -> Forall (fun kv => obj_ok (snd kv)) d -> fst (state_update s d) = Ok s' -> state_ok s'.
Proof.
  intros s d s' S D H. unfold state_update in H. cbn [fst] in H. eapply mk_state_ok; [| | | |exact H].
  - unfold pop_or. destruct (get "kernel" d) eqn:E; [eapply (get_forall obj_ok); eauto|]. apply S.
  - unfold pop_or. destruct (get "mean_function" d) eqn:E; [eapply (get_forall obj_ok); eauto|]. apply S.
  - unfold pop_or. destruct (get "params" d) eqn:E; [eapply (get_forall obj_ok); eauto|]. apply S.
  - apply dict_ok_merge; [now apply register_ok|]. now repeat apply del_forall.
Qed.
Lemma get_vmap : forall {A B} (f : A -> B) k d, get k (vmap f d) = option_map f (get k d).
Proof. intros A B f k d. induction d as [|[k' v'] r IH]; simpl; auto. now destruct (String.eqb k k'). Qed.
Lemma get_del3 : forall k (d : dict obj), get k (rest_of d) =
  if String.eqb k "kernel" then None else if String.eqb k "mean_function" then None else if String.eqb k "params" then None else get k d.
Proof.
  intros k d. unfold rest_of.
  destruct (String.eqb k "kernel") eqn:E1; [apply String.eqb_eq in E1; subst; rewrite !get_del_other by discriminate; apply get_del_same|].
  apply String.eqb_neq in E1.
  destruct (String.eqb k "mean_function") eqn:E2; [apply String.eqb_eq in E2; subst; rewrite get_del_other by discriminate; apply get_del_same|].
  apply String.eqb_neq in E2.
  destruct (String.eqb k "params") eqn:E3; [apply String.eqb_eq in E3; subst; apply get_del_same|]. apply String.eqb_neq in E3.
  now rewrite !get_del_other by congruence.
Qed.
