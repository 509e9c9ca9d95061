(** Lemmas behind Props/ViewsProps.v. *)
From Coq Require Import String List Bool Arith Permutation Sorted.
From Verif Require Import Model.PyDict Model.Bijectors Model.Params Model.State Model.Lifecycle Model.Views
  Spec.DictSpec Spec.StateSpec Spec.ChecksSpec Spec.ViewsSpec
  Proofs.DictFacts Proofs.TreeFacts Proofs.StateFacts Proofs.UpdateFacts Proofs.ChecksFacts Proofs.SaveLoad.
Import ListNotations.
Open Scope string_scope.

(** ** lists of paths *)
Lemma tree_paths_paths : forall {A} (t : tree A), tree_paths t = paths t.
Proof.
  intros A t. induction t as [a|l IH] using tree_ind'; [reflexivity|]. simpl. induction l as [|[k s] r IHr]; [reflexivity|].
  inversion IH as [|? ? J1 J2]; subst. cbn [flat_map]. cbn [snd] in J1. rewrite J1. f_equal. apply IHr, J2.
Qed.
Lemma tleaves_paths : forall {A} (t : tree A), map snd (tree_paths t) = tleaves t.
Proof.
  intros A t. induction t as [a|l IH] using tree_ind'; [reflexivity|]. simpl. induction l as [|[k s] r IHr]; [reflexivity|].
  inversion IH as [|? ? J1 J2]; subst. cbn [flat_map]. rewrite map_app, map_map. cbn [snd] in *. f_equal; [exact J1|apply IHr, J2].
Qed.
Lemma ss_app : forall {A} (R : A -> A -> Prop) a b, StronglySorted R a -> StronglySorted R b ->
  (forall x y, In x a -> In y b -> R x y) -> StronglySorted R (a ++ b)%list.
Proof.
  intros A R a b H1 H2 H. induction H1 as [|x a S IH F]; [exact H2|]. cbn. constructor.
  - apply IH. intros; apply H; auto. now right.
  - rewrite Forall_app. split; auto. apply Forall_forall. intros y Y. apply H; auto. now left.
Qed.
Lemma sorted_paths : forall {A} (t : tree A), sorted t -> StronglySorted path_lt (map fst (tree_paths t)).
Proof.
  intros A t. induction t as [a|l IH] using tree_ind'; intro S; [repeat constructor|]. apply sorted_node in S. destruct S as [S K].
  cbn [tree_paths]. induction l as [|[k s] r IHr]; [constructor|]. inversion IH as [|? ? J1 J2]; subst. inversion K as [|? ? K1 K2]; subst.
  cbn [map fst] in S. inversion S as [|? ? S1 S2]; subst. cbn [flat_map snd] in *. rewrite map_app. apply ss_app.
  - specialize (J1 K1). clear -J1. rewrite map_map. cbn [fst]. induction (tree_paths s) as [|q l IHl]; [constructor|]. cbn [map] in *. inversion J1 as [|? ? A1 A2]; subst.
    constructor; [auto|]. clear -A2. induction l as [|q' l IHl]; [constructor|]. cbn [map] in *. inversion A2; subst. constructor; [right; auto|auto].
  - apply IHr; auto.
  - intros x y X Y. rewrite map_map in X. apply in_map_iff in X. destruct X as [q [<- _]]. apply in_map_iff in Y. destruct Y as [q' [<- Y]].
    apply in_flat_map in Y. destruct Y as [[k' s'] [Y1 Y2]]. apply in_map_iff in Y2. destruct Y2 as [q2 [<- _]]. cbn [fst]. left.
    rewrite Forall_forall in S2. apply S2. change k' with (fst (k', s')). now apply in_map.
Qed.
Definition keep (q : list string * option param) : list (list string * param) := match snd q with Some p => [(fst q, p)] | None => [] end.
Lemma keep_in : forall l path p, In (path, p) (flat_map keep l) <-> In (path, Some p) l.
Proof.
  intros l path p. rewrite in_flat_map. split.
  - intros [[q o] [H1 H2]]. unfold keep in H2. cbn in H2. destruct o as [p'|]; [|destruct H2]. destruct H2 as [H2|[]]. injection H2 as -> ->. exact H1.
  - intro H. exists (path, Some p). split; auto. now left.
Qed.
Lemma keep_sorted : forall l, StronglySorted path_lt (map fst l) -> StronglySorted path_lt (map fst (flat_map keep l)).
Proof.
  intros l. induction l as [|[q o] l IH]; intro S; [constructor|]. cbn [map fst] in S. inversion S as [|? ? S1 S2]; subst. cbn [flat_map]. rewrite map_app. apply ss_app; auto.
  - destruct o; repeat constructor.
  - intros x y X Y. unfold keep in X. cbn in X. destruct o as [p|]; [|destruct X]. destruct X as [<-|[]]. apply in_map_iff in Y. destruct Y as [[y' p'] [<- Y]].
    apply keep_in in Y. rewrite Forall_forall in S2. exact (S2 y' (in_map fst l (y', Some p') Y)).
Qed.
Lemma keep_somes : forall l, map snd (flat_map keep l) = somes (map snd l).
Proof. intros l. induction l as [|[q [p|]] l IH]; [reflexivity| |]; unfold somes in *; cbn; now rewrite ?IH. Qed.
Lemma path_lt_irrefl : forall p, ~ path_lt p p.
Proof. intro p. induction p as [|a p IH]; [easy|]. intros [H|[_ H]]; [eapply slt_irrefl; eauto|auto]. Qed.
Lemma ss_nodup : forall l, StronglySorted path_lt l -> NoDup l.
Proof.
  intros l S. induction S as [|a l S IH F]; constructor; auto. intro H. rewrite Forall_forall in F. apply (path_lt_irrefl a), F, H.
Qed.
Lemma leaves_eq : forall t, leaves_with_path t = flat_map keep (tree_paths (canon t)).
Proof. reflexivity. Qed.
Lemma leaves_sorted : forall t, keys_distinct t -> StronglySorted path_lt (map fst (leaves_with_path t)).
Proof. intros t K. rewrite leaves_eq. apply keep_sorted, sorted_paths, canon_sorted, K. Qed.
Lemma leaves_in : forall t path p, keys_distinct t -> (In (path, p) (leaves_with_path t) <-> lookup path t = Some (Some p)).
Proof.
  intros t path p K. rewrite leaves_eq, keep_in, tree_paths_paths, paths_lookup by (apply sorted_distinct, canon_sorted, K). now rewrite lookup_canon.
Qed.
Lemma leaves_params : forall t, params_of t = map snd (leaves_with_path t).
Proof. intro t. unfold params_of. rewrite leaves_eq, keep_somes. now rewrite tleaves_paths. Qed.

(** ** the views *)
Lemma views : forall s, state_ok s -> exists L : list (list string * param),
  StronglySorted path_lt (map fst L) /\
  (forall path p, In (path, p) L <-> lookup path (s_params s) = Some (Some p)) /\
  params_value s = map (fun q => p_value (snd q)) L /\
  params_trainable s = map (fun q => m_trainable (p_meta (snd q))) L /\
  params_priors s = map (fun q => m_prior (p_meta (snd q))) L /\
  params_forward_transforms s = map (fun q => forward_arr (m_bijector (p_meta (snd q)))) L /\
  params_backward_transforms s = map (fun q => backward_arr (m_bijector (p_meta (snd q)))) L /\
  fst (state_flatten s) = map (fun q => p_value (snd q)) L.
Proof.
  intros s [[K _] _]. exists (leaves_with_path (s_params s)). split; [now apply leaves_sorted|]. split; [intros; now apply leaves_in|].
  unfold params_value, params_trainable, params_priors, params_forward_transforms, params_backward_transforms, state_flatten, tree_values.
  cbn [fst]. rewrite leaves_params, !map_map. repeat split.
Qed.

(** ** the table *)
Definition others (l : list (string * ptree)) : list (list string * param) :=
  flat_map (fun kv => match snd kv with Leaf (Some p) => [([fst kv], p)] | _ => [] end) l.
Lemma other_rows_ok : forall l, Forall (fun kv => exists o, snd kv = Leaf o) l ->
  other_rows l = Ok (map (fun q => get_info (hd "" (fst q)) (snd q)) (others l)).
Proof.
  intros l H. induction H as [|[k t] l [o E] F IH]; [reflexivity|]. cbn in E. subst t. destruct o as [p|]; cbn; rewrite IH; reflexivity.
Qed.
Lemma other_rows_err : forall l, Exists (fun kv => exists d, snd kv = Node d) l -> other_rows l = Err AttributeError.
Proof.
  intros l H. induction l as [|[k t] l IH]; [inversion H|]. inversion H as [? ? [d E]|? ? E]; subst.
  - cbn in E. subst t. reflexivity.
  - destruct t as [[p|]|d]; cbn; auto; rewrite IH by auto; reflexivity.
Qed.
Lemma others_in : forall l path p, NoDup (map fst l) -> (In (path, p) (others l) <-> exists k, path = [k] /\ get k l = Some (Leaf (Some p))).
Proof.
  intros l path p N. unfold others. rewrite in_flat_map. split.
  - intros [[k t] [H1 H2]]. cbn in H2. destruct t as [[p'|]|d]; [|destruct H2|destruct H2]. destruct H2 as [H2|[]]. injection H2 as <- <-. exists k. split; auto. apply in_get; auto.
  - intros [k [-> G]]. apply get_in in G. exists (k, Leaf (Some p)). split; auto. now left.
Qed.
Lemma others_sorted : forall l, ssorted (map fst l) -> StronglySorted path_lt (map fst (others l)).
Proof.
  intros l. induction l as [|[k t] l IH]; intro S; [constructor|]. cbn [map fst] in S. inversion S as [|? ? S1 S2]; subst. unfold others. cbn [flat_map fst snd]. rewrite map_app. apply ss_app; auto.
  - destruct t as [[p|]|]; repeat constructor.
  - intros x y X Y. destruct t as [[p|]|]; [|destruct X|destruct X]. destruct X as [<-|[]]. apply in_map_iff in Y. destruct Y as [[y' p'] [<- Y]].
    apply in_flat_map in Y. destruct Y as [[k' t'] [Y1 Y2]]. cbn in Y2. destruct t' as [[p2|]|]; [|destruct Y2|destruct Y2]. destruct Y2 as [Y2|[]]. injection Y2 as <- <-. cbn. left.
    rewrite Forall_forall in S2. apply S2. change k' with (fst (k', Leaf (Some p2) : ptree)). now apply in_map.
Qed.
Lemma del_sorted : forall {A} k (l : dict A), ssorted (map fst l) -> ssorted (map fst (del k l)).
Proof.
  intros A k l. induction l as [|[k' v] l IH]; intro S; [constructor|]. cbn [map fst] in S. inversion S as [|? ? S1 S2]; subst. unfold del. cbn [filter fst].
  destruct (negb (String.eqb k k')); [|now apply IH]. cbn [map fst]. constructor; [now apply IH|]. apply Forall_forall. intros x X. apply in_map_iff in X. destruct X as [[x' v'] [<- X]].
  apply filter_In in X. destruct X as [X _]. rewrite Forall_forall in S2. apply S2. change x' with (fst (x', v')). now apply in_map.
Qed.
Lemma colons_join : forall p, join p = colons p.
Proof.
  intros p. induction p as [|a p IH]; [reflexivity|]. destruct p as [|b p]; [reflexivity|]. change (join (a :: b :: p)) with (a ++ ":" ++ join (b :: p)). rewrite IH. reflexivity.
Qed.
Lemma table : forall s l kp, state_ok s -> s_params s = Node l -> get "kernel_params" l = Some kp ->
  (forall k t, In (k, t) l -> k <> "kernel_params" -> exists o, t = Leaf o) ->
  exists L1 L2 : list (list string * param), print_params s = Ok (map named_row (L1 ++ L2)%list) /\
    Forall in_kernel L1 /\ Forall not_kernel L2 /\
    StronglySorted path_lt (map fst L1) /\ StronglySorted path_lt (map fst L2) /\
    (forall path p, In (path, p) (L1 ++ L2)%list <-> lookup path (s_params s) = Some (Some p)).
Proof.
  intros s l kp [[K _] [S _]] E G H. rewrite E in K, S. apply kd_node in K. destruct K as [N K]. apply sorted_node in S. destruct S as [S SK].
  assert (KK : keys_distinct kp) by (rewrite Forall_forall in K; apply (K _ (get_in _ _ _ G))).
  exists (map (fun q => ("kernel_params" :: fst q, snd q)) (leaves_with_path kp)), (others (del "kernel_params" l)).
  assert (D : Forall (fun kv : string * ptree => exists o, snd kv = Leaf o) (del "kernel_params" l)).
  { apply Forall_forall. intros [k t] X. apply filter_In in X. destruct X as [X1 X2]. cbn in X2. apply (H k t X1). intros ->. discriminate X2. }
  split; [|split; [|split; [|split; [|split]]]].
  - unfold print_params. rewrite E. cbn [as_node bind]. rewrite G, other_rows_ok by exact D. cbn [bind]. f_equal. rewrite map_app, map_map. f_equal.
    + apply map_ext. intros [q p]. unfold named_row, get_info. cbn [fst snd shown_name]. rewrite String.eqb_refl, colons_join. reflexivity.
    + apply map_ext_in. intros [q p] X. apply others_in in X; [|now apply del_nodup]. destruct X as [k [-> X]]. unfold named_row, get_info. cbn [fst snd hd shown_name].
      destruct (String.eqb_spec k "kernel_params") as [->|_]; [|reflexivity]. rewrite get_del_same in X. discriminate.
  - apply Forall_forall. intros [q p] X. apply in_map_iff in X. destruct X as [[r p'] [X _]]. injection X as <- <-. exists r. reflexivity.
  - apply Forall_forall. intros [q p] X. apply others_in in X; [|now apply del_nodup]. destruct X as [k [-> X]]. exists k, []. split; auto. intros ->. rewrite get_del_same in X. discriminate.
  - rewrite map_map. cbn [fst]. pose proof (leaves_sorted kp KK) as SL. clear -SL. induction (leaves_with_path kp) as [|q r IH]; [constructor|]. cbn [map] in *.
    inversion SL as [|? ? A1 A2]; subst. constructor; auto. clear -A2. induction r as [|q' r IH]; [constructor|]. cbn [map] in *. inversion A2; subst. constructor; [right; auto|auto].
  - apply others_sorted, del_sorted, S.
  - intros path p. rewrite in_app_iff, E. rewrite others_in by now apply del_nodup. split.
    + intros [X|[k [-> X]]].
      * apply in_map_iff in X. destruct X as [[r p'] [X Y]]. injection X as <- <-. cbn [lookup]. rewrite G. now apply leaves_in.
      * cbn [lookup]. destruct (String.eqb_spec k "kernel_params") as [->|Nk]; [rewrite get_del_same in X; discriminate|]. rewrite get_del_other in X by auto. now rewrite X.
    + intro X. destruct path as [|k r]; [discriminate|]. cbn [lookup] in X. destruct (get k l) as [t|] eqn:Gk; [|discriminate].
      destruct (String.eqb_spec k "kernel_params") as [->|Nk].
      * left. rewrite Gk in G. injection G as ->. apply in_map_iff. exists (r, p). split; auto. now apply leaves_in.
      * right. exists k. rewrite get_del_other by auto. destruct (H k t (get_in _ _ _ Gk) Nk) as [o ->]. destruct r; [|discriminate]. injection X as ->. auto.
Qed.
Lemma table_raises : forall s l, state_ok s -> s_params s = Node l ->
  (get "kernel_params" l = None -> print_params s = Err KeyError) /\
  (forall k d, get "kernel_params" l <> None -> k <> "kernel_params" -> get k l = Some (Node d) -> print_params s = Err AttributeError).
Proof.
  intros s l _ E. unfold print_params. rewrite E. cbn [as_node bind]. split; [now intros ->|]. intros k d N Nk G. destruct (get "kernel_params" l) as [kp|] eqn:GK; [|congruence].
  rewrite other_rows_err; [reflexivity|]. apply Exists_exists. exists (k, Node d). split; [|eexists; reflexivity]. apply get_in. rewrite get_del_other; auto.
Qed.

(** ** the names of the table *)
Lemma all_names_node : forall {A} (P : string -> Prop) (l : list (string * tree A)),
  all_names P (Node l) <-> Forall (fun kv => P (fst kv) /\ all_names P (snd kv)) l.
Proof.
  intros A P l. cbn. induction l as [|[k s] r IH]; [split; constructor|]. rewrite IH. split.
  - intros [H1 [H2 H3]]. constructor; auto.
  - intro H. inversion H as [|? ? [H1 H2] H3]; subst. auto.
Qed.
Lemma lookup_names : forall {A} (P : string -> Prop) path (t : tree A) a, all_names P t -> lookup path t = Some a -> Forall P path.
Proof.
  intros A P path. induction path as [|k r IH]; intros t a H L; [constructor|]. destruct t as [b|l]; [discriminate|]. cbn [lookup] in L. destruct (get k l) as [s|] eqn:G; [|discriminate].
  apply all_names_node in H. rewrite Forall_forall in H. destruct (H _ (get_in _ _ _ G)) as [H1 H2]. constructor; auto. eapply IH; eauto.
Qed.
Lemma app_inj : forall a b c, a ++ b = a ++ c -> b = c.
Proof. intros a b c. induction a as [|x a IH]; cbn; [auto|]. intro H. injection H as H. auto. Qed.
Lemma colons_inj : forall p q, p <> [] -> q <> [] -> Forall no_colon p -> Forall no_colon q -> colons p = colons q -> p = q.
Proof. intros p q Hp Hq Fp Fq E. rewrite <- !colons_join in E. now apply jn_inj. Qed.
Lemma nodup_map_inj : forall {A B} (f : A -> B) l, NoDup l -> (forall x y, In x l -> In y l -> f x = f y -> x = y) -> NoDup (map f l).
Proof.
  intros A B f l N. induction N as [|x l X N IH]; intro H; [constructor|]. cbn. constructor.
  - intro Y. apply in_map_iff in Y. destruct Y as [y [E Y]]. assert (y = x) by (apply H; auto; [now right|now left]). subst. auto.
  - apply IH. intros. apply H; auto; now right.
Qed.
Lemma names : forall s l kp rows, state_ok s -> s_params s = Node l -> get "kernel_params" l = Some kp ->
  all_names no_colon kp -> (forall k, In k (map fst l) -> forall r, k <> "kernel " ++ r) ->
  print_params s = Ok rows -> NoDup (map r_name rows).
Proof.
  intros s l kp rows OK E G NC NK P. assert (H : forall k t, In (k, t) l -> k <> "kernel_params" -> exists o, t = Leaf o).
  { intros k t X Nk. destruct t as [o|d]; [eauto|]. exfalso. destruct (table_raises s l OK E) as [_ R]. rewrite (R k d) in P; [discriminate| |auto|].
    - rewrite G. discriminate.
    - destruct OK as [[K _] _]. rewrite E in K. apply kd_node in K. apply in_get; [apply K|exact X]. }
  destruct (table s l kp OK E G H) as [L1 [L2 [T [I1 [I2 [S1 [S2 IN]]]]]]]. rewrite T in P. injection P as <-. rewrite map_map. cbn [r_name named_row].
  assert (Q : map (fun q : list string * param => shown_name (fst q)) (L1 ++ L2)%list = map shown_name (map fst (L1 ++ L2)%list)) by now rewrite map_map.
  change (map (fun x : list string * param => r_name (named_row x)) (L1 ++ L2)%list) with (map (fun q : list string * param => shown_name (fst q)) (L1 ++ L2)%list). rewrite Q. clear Q.
  assert (PL : forall x, In x (map fst (L1 ++ L2)%list) -> exists p, lookup x (Node l) = Some (Some p)).
  { intros x X. apply in_map_iff in X. destruct X as [[y p] [<- X]]. apply IN in X. rewrite E in X. eauto. }
  assert (HD : forall x, In x (map fst (L1 ++ L2)%list) -> (exists r, x = "kernel_params" :: r) \/ exists k, x = [k] /\ k <> "kernel_params" /\ In k (map fst l)).
  { intros x X. destruct (PL x X) as [p L]. destruct x as [|k r]; [discriminate|]. cbn [lookup] in L. destruct (get k l) as [t|] eqn:Gk; [|discriminate].
    destruct (String.eqb_spec k "kernel_params") as [->|Nk]; [left; eauto|]. right. exists k. destruct (H k t (get_in _ _ _ Gk) Nk) as [o ->]. destruct r; [|discriminate]. repeat split; auto.
    apply get_in in Gk. change k with (fst (k, Leaf o : ptree)). now apply in_map. }
  apply nodup_map_inj.
  - rewrite map_app.
    assert (NA : forall a b : list (list string), NoDup a -> NoDup b -> (forall x, In x a -> ~ In x b) -> NoDup (a ++ b)%list).
    { clear. intros a b Na Nb D. induction Na as [|x a X Na IH]; [exact Nb|]. cbn. constructor.
      - rewrite in_app_iff. intros [Y|Y]; auto. apply (D x); auto. now left.
      - apply IH. intros y Y. apply D. now right. }
    apply NA; [now apply ss_nodup|now apply ss_nodup|]. intros x X Y. apply in_map_iff in X. destruct X as [q [<- X]]. apply in_map_iff in Y. destruct Y as [q' [F Y]].
    rewrite Forall_forall in I1, I2. destruct (I1 _ X) as [r R]. destruct (I2 _ Y) as [k [r' [R' Nk]]]. rewrite R, R' in F. injection F as F _. auto.
  - intros x y X Y F. destruct (HD x X) as [[r ->]|[k [-> [Nk Ik]]]], (HD y Y) as [[r' ->]|[k' [-> [Nk' Ik']]]]; cbn [shown_name] in F.
    + rewrite String.eqb_refl in F. apply app_inj in F. f_equal. destruct (PL _ X) as [p Lp], (PL _ Y) as [p' Lp']. cbn [lookup] in Lp, Lp'. rewrite G in Lp, Lp'.
      pose proof (lookup_names _ _ _ _ NC Lp) as A1. pose proof (lookup_names _ _ _ _ NC Lp') as A2.
      destruct kp as [a|d]; [destruct r, r'; try discriminate; reflexivity|]. apply colons_inj; auto; intros ->; discriminate.
    + rewrite String.eqb_refl in F. destruct (String.eqb_spec k' "kernel_params"); [congruence|]. exfalso. symmetry in F. exact (NK k' Ik' _ F).
    + rewrite String.eqb_refl in F. destruct (String.eqb_spec k "kernel_params"); [congruence|]. exfalso. exact (NK k Ik _ F).
    + destruct (String.eqb_spec k "kernel_params"); [congruence|]. destruct (String.eqb_spec k' "kernel_params"); [congruence|]. now subst.
Qed.

(** ** accessors after a fit *)
Lemma attr_update : forall s d s' k, state_ok s -> NoDup (map fst d) -> fst (state_update s d) = Ok s' -> ~ reserved k ->
  attr s' k = match get k d with Some v => Ok (as_attr v) | None => attr s k end.
Proof.
  intros s d s' k OK N U R. unfold state_update in U. cbn [fst] in U. rewrite mk_state_eq in U. apply bind_ok in U. destruct U as [t [_ U]]. injection U as <-.
  unfold attr. cbn [s_register]. unfold norm. rewrite get_vmap. rewrite get_merge by (repeat apply del_nodup; exact N).
  unfold reserved in R. rewrite !get_del_other by tauto. destruct (get k d) as [v|]; [reflexivity|]. destruct (get k (s_register s)) as [v|] eqn:G; [|reflexivity]. cbn [option_map].
  destruct OK as [_ [_ [_ [F _]]]]. rewrite Forall_forall in F. destruct (F _ (get_in _ _ _ G)) as [_ NR]. cbn [snd] in NR. now rewrite as_attr_id.
Qed.
Lemma as_attr_arr : forall v, as_attr (OArr v) = OArr v.
Proof. intro v. unfold as_attr. destruct (is_numeric (OArr v)); reflexivity. Qed.
Lemma as_attr_none : as_attr ONone = ONone.
Proof. reflexivity. Qed.
Ltac notres := intros [?|[?|?]]; discriminate.
Ltac nd := repeat constructor; cbn; intuition discriminate.
Lemma fit_accessors : forall num extra fields d o s s',
  In fields [["c"; "mu"]; ["jaccoef"; "c"; "mu"]; ["c"; "mu"; "x_locs"]; ["jaccoef"; "c"; "mu"; "x_locs"; "jacobian_locs"]] ->
  state_ok s -> fit_fun num extra fields d o s = Ok s' ->
  exists vs f, mapM (attr s) extra = Ok vs /\ num (s_params s) (s_kernel s) (s_mean s) vs d o = Ok f /\
    gp_c s' = Ok (OArr (f "c")) /\ gp_mu s' = Ok (OArr (f "mu")) /\
    match d with
    | Targets x y => gp_x_train s' = Ok (OArr x) /\ gp_y_train s' = Ok (OArr y) /\ gp_jacobian_train s' = gp_jacobian_train s
    | Derivs x y j | Both x y j _ => gp_x_train s' = Ok (OArr x) /\ gp_y_train s' = Ok (OArr y) /\ gp_jacobian_train s' = Ok (OArr j)
    end.
Proof.
  intros num extra fields d o s s' IN OK H. unfold fit_fun in H. apply bind_ok in H. destruct H as [vs [H1 H]]. apply bind_ok in H. destruct H as [f [H2 H]].
  exists vs, f. split; auto. split; auto. unfold gp_c, gp_mu, gp_x_train, gp_y_train, gp_jacobian_train.
  destruct IN as [<-|[<-|[<-|[<-|[]]]]]; destruct d as [x y|x y j|x y j dy]; cbn [data_fields map app] in H;
  match type of H with fst (state_update s ?D) = _ =>
    assert (ND : NoDup (map fst D)) by nd;
    repeat (match goal with |- _ /\ _ => split end);
    (rewrite (attr_update s D s' _ OK ND H) by notres); cbn [get String.eqb Ascii.eqb Bool.eqb]; rewrite ?as_attr_arr; reflexivity
  end.
Qed.
Lemma class_accessors : forall N (cl : gp_class) t sg body d o s s', In cl [GPR N; SGPR N; SGPR_RPChol N] ->
  k_fit cl t = Some (sg, body) -> task_of d = t -> state_ok s -> body d o s = Ok s' ->
  exists vs f, n_fit N t (s_params s) (s_kernel s) (s_mean s) vs d o = Ok f /\
    gp_c s' = Ok (OArr (f "c")) /\ gp_mu s' = Ok (OArr (f "mu")) /\
    match d with
    | Targets x y => gp_x_train s' = Ok (OArr x) /\ gp_y_train s' = Ok (OArr y) /\ gp_jacobian_train s' = gp_jacobian_train s
    | Derivs x y j | Both x y j _ => gp_x_train s' = Ok (OArr x) /\ gp_y_train s' = Ok (OArr y) /\ gp_jacobian_train s' = Ok (OArr j)
    end.
Proof.
  intros N cl t sg body d o s s' [<-|[<-|[<-|[]]]] K T OK B; destruct t; cbn in K; try discriminate; injection K as <- <-;
  apply fit_accessors in B; auto; try (cbn; tauto); destruct B as [vs [f [_ [F R]]]]; exists vs, f; auto.
Qed.
(** ** a reset *)
Lemma randomize_attr : forall sample s key opt s' k, state_ok s -> NoDup (map fst opt) -> ~ reserved k ->
  Forall (fun kv => ~ reserved (fst kv)) opt -> randomize sample s key opt = Ok s' ->
  attr s' k = match get k opt with Some v => Ok (as_attr v) | None => attr s k end.
Proof.
  intros sample s key opt s' k OK N R RO H. unfold randomize in H. apply bind_ok in H. destruct H as [st [C H]]. apply bind_ok in H. destruct H as [t [_ H]].
  unfold state_copy in C. pose proof (attr_update s [] st k OK (NoDup_nil _) C R) as A1. cbn [get] in A1.
  assert (OK' : state_ok st) by (eapply state_update_ok; eauto).
  rewrite (attr_update st (merge [("params", OParams t)] opt) s' k OK'); auto.
  - rewrite get_merge by auto. destruct (get k opt); [reflexivity|]. cbn [get]. destruct (String.eqb_spec k "params") as [->|_]; [|now rewrite A1]. exfalso. apply R. unfold reserved. auto.
  - apply fold_set_nodup. repeat constructor. easy.
Qed.
Lemma reset_gpr : forall N sample s key s', state_ok s -> randomize sample s key (k_reset (GPR N)) = Ok s' ->
  gp_c s' = Ok ONone /\ gp_mu s' = Ok ONone /\ attr s' "is_fitted" = Ok (OBool false) /\ attr s' "is_fitted_derivs" = Ok (OBool false) /\
  gp_x_train s' = gp_x_train s /\ gp_y_train s' = gp_y_train s /\ gp_jacobian_train s' = gp_jacobian_train s.
Proof.
  intros N sample s key s' OK H. unfold gp_c, gp_mu, gp_x_train, gp_y_train, gp_jacobian_train.
  assert (N1 : NoDup (map fst (k_reset (GPR N)))) by nd. assert (R1 : Forall (fun kv => ~ reserved (fst kv)) (k_reset (GPR N))) by (repeat constructor; notres).
  repeat split; rewrite (randomize_attr sample s key _ s' _ OK N1) by (notres || assumption); reflexivity.
Qed.
Lemma reset_sparse : forall N sample s key s' cl, In cl [SGPR N; SGPR_RPChol N] -> state_ok s -> randomize sample s key (k_reset cl) = Ok s' ->
  gp_c s' = Ok ONone /\ gp_mu s' = gp_mu s /\ attr s' "is_fitted" = Ok (OBool false) /\ attr s' "is_fitted_derivs" = Ok (OBool false) /\
  attr s' "y_mean" = Ok ONone.
Proof.
  intros N sample s key s' cl IN OK H. unfold gp_c, gp_mu.
  assert (N1 : NoDup (map fst (k_reset cl))) by (destruct IN as [<-|[<-|[]]]; nd).
  assert (R1 : Forall (fun kv => ~ reserved (fst kv)) (k_reset cl)) by (destruct IN as [<-|[<-|[]]]; repeat constructor; notres).
  repeat split; rewrite (randomize_attr sample s key _ s' _ OK N1) by (notres || assumption); destruct IN as [<-|[<-|[]]]; reflexivity.
Qed.
