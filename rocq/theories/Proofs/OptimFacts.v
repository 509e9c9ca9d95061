(** Optimiser coordinates. *)
From Coq Require Import String List Bool Arith Reals Permutation Lia Lra.
From Verif Require Import Model.PyDict Model.Bijectors Model.Priors Model.Params Model.State Model.Optim Spec.DictSpec Spec.StateSpec Spec.BijectorSpec
  Spec.RandomSpec Spec.OptimSpec Proofs.BijectorLemmas Proofs.DictFacts Proofs.TreeFacts Proofs.StateFacts Proofs.UpdateFacts Proofs.SaveLoad
  Proofs.RandomFacts Proofs.StatePropLemmas.
Import ListNotations.
Open Scope string_scope.
Open Scope nat_scope.

(** ** lists *)
Lemma zip_length : forall {A B} (a : list A) (b : list B), length a = length b -> length (zip a b) = length a.
Proof. intros A B a. induction a as [|x a IH]; intros [|y b] H; simpl in *; auto; try discriminate. Qed.
Lemma zip_fst : forall {A B} (a : list A) (b : list B), length a = length b -> map fst (zip a b) = a.
Proof. intros A B a. induction a as [|x a IH]; intros [|y b] H; simpl in *; auto; try discriminate. f_equal. auto. Qed.
Lemma zip_snd : forall {A B} (a : list A) (b : list B), length a = length b -> map snd (zip a b) = b.
Proof. intros A B a. induction a as [|x a IH]; intros [|y b] H; simpl in *; auto; try discriminate. f_equal. auto. Qed.
Lemma F2_zip_map : forall {A B C} (R : A -> C -> Prop) (f : A * B -> C) a b, length a = length b ->
  (forall x y, In (x, y) (zip a b) -> R x (f (x, y))) -> Forall2 R a (map f (zip a b)).
Proof.
  intros A B C R f a. induction a as [|x a IH]; intros [|y b] L H; simpl in *; try discriminate; constructor; auto.
Qed.
Lemma F2_map_r : forall {A B C} (R : A -> C -> Prop) (f : B -> C) a b, Forall2 (fun x y => R x (f y)) a b <-> Forall2 R a (map f b).
Proof.
  intros A B C R f a. induction a as [|x a IH]; intros [|y b]; split; intro H; inversion H; subst; simpl; constructor; auto; now apply IH.
Qed.
Lemma map_tree_inj : forall {A B} (f g : A -> B) t, map_tree f t = map_tree g t -> every (fun x => f x = g x) t.
Proof.
  intros A B f g t. induction t as [a|l IH] using tree_ind'; intro H; [now inversion H|].
  rewrite !map_node in H. inversion H as [H']. clear H. apply every_node. revert H'. induction l as [|[k s] r IHr]; intro H; [constructor|].
  inversion IH as [|x y J1 J2]; subst. simpl in H. inversion H. constructor; auto.
Qed.
Lemma every_impl : forall {A} (P Q : A -> Prop) t, (forall a, P a -> Q a) -> every P t -> every Q t.
Proof. intros A P Q t H E. apply every_leaves. apply every_leaves in E. eapply Forall_impl; eauto. Qed.
Lemma every_lookup' : forall {A} (P : A -> Prop) t path x, every P t -> lookup path t = Some x -> P x.
Proof.
  intros A P t. induction t as [y|m IH] using tree_ind'; intros path x H L.
  - destruct path; [|discriminate]. inversion L; subst. exact H.
  - destruct path as [|k r]; [discriminate|]. simpl in L. destruct (get k m) as [s'|] eqn:Gk; [|discriminate].
    apply get_in in Gk. apply every_node in H. rewrite Forall_forall in IH, H. exact (IH _ Gk _ _ (H _ Gk) L).
Qed.

(** ** trainables *)
Definition trunc1 (o : option param) : option param :=
  match o with Some p => if m_trainable (p_meta p) then Some p else None | None => None end.
Lemma truncate_params : forall t, params_of (truncate t) = trainables t.
Proof.
  intro t. unfold params_of, trainables, params_of, truncate. fold trunc1. rewrite canon_map, tleaves_map.
  induction (tleaves (canon t)) as [|[p|] r IH]; simpl; auto. unfold somes in *. simpl. destruct (m_trainable (p_meta p)); simpl; now rewrite IH.
Qed.
Lemma on_trainable_list : forall P t, on_trainable P t <-> Forall P (trainables t).
Proof.
  intros P t. unfold on_trainable, trainables, params_of. rewrite every_canon, every_leaves.
  induction (tleaves (canon t)) as [|[p|] r IH].
  - split; constructor.
  - unfold somes in *. simpl. destruct (m_trainable (p_meta p)) eqn:T; split; intro H.
    + inversion H; subst. constructor; [auto|now apply IH].
    + inversion H; subst. constructor; [auto|now apply IH].
    + inversion H; subst. now apply IH.
    + constructor; [congruence|now apply IH].
  - unfold somes in *. simpl. split; intro H; [inversion H; subst; now apply IH|constructor; [exact I|now apply IH]].
Qed.
Lemma truncate_ok : forall t, ptree_ok t -> ptree_ok (truncate t).
Proof.
  intros t [K E]. split; [now apply kd_map|]. unfold truncate. apply every_map. eapply every_impl; [|exact E]. intros [p|]; simpl; auto.
  intro H. destruct (m_trainable (p_meta p)); simpl; auto.
Qed.
Lemma trainables_ok : forall t, ptree_ok t -> Forall param_ok (trainables t).
Proof.
  intros t T. apply on_trainable_list. unfold on_trainable. destruct T as [_ E]. eapply every_impl; [|exact E]. intros [p|]; simpl; auto.
Qed.

(** ** unravel_list *)
Lemma chunks_spec : forall vs data, length data = total vs ->
  length (chunks vs data) = length vs /\ concat (chunks vs data) = data /\ Forall2 (fun v c => length c = size_of (a_shape v)) vs (chunks vs data).
Proof.
  induction vs as [|v r IH]; intros data H; simpl in *.
  - destruct data; [|discriminate]. repeat split; constructor.
  - destruct (IH (skipn (size_of (a_shape v)) data)) as [A1 [A2 A3]].
    { rewrite skipn_length. lia. }
    repeat split.
    + now rewrite A1.
    + rewrite A2. apply firstn_skipn.
    + constructor; auto. rewrite firstn_length. lia.
Qed.
Lemma unravel_list_inv : forall vs x xs, unravel_list vs x = Ok xs ->
  Forall2 (fun v y => a_shape y = a_shape v /\ length (a_data y) = size_of (a_shape v)) vs xs /\
  (vs <> [] -> length (a_data x) = total vs) /\
  (vs <> [] -> Forall (fun v => floating (a_dtype v)) vs -> flat_map a_data xs = a_data x).
Proof.
  intros vs x xs H. unfold unravel_list in H. destruct vs as [|v0 r0]; [inversion H; repeat split; [constructor|congruence|congruence]|].
  remember (v0 :: r0) as vs eqn:E. clear E v0 r0. cbv zeta in H.
  assert (G : forall f : array * list num -> array, (forall v c, In v vs -> a_shape (f (v, c)) = a_shape v /\ length (a_data (f (v, c))) = length c) ->
    (Forall (fun v => floating (a_dtype v)) vs -> forall v c, In v vs -> a_data (f (v, c)) = c) ->
    length (a_data x) = total vs -> xs = map f (zip vs (chunks vs (a_data x))) ->
    Forall2 (fun v y => a_shape y = a_shape v /\ length (a_data y) = size_of (a_shape v)) vs xs /\
    (vs <> [] -> length (a_data x) = total vs) /\
    (vs <> [] -> Forall (fun v => floating (a_dtype v)) vs -> flat_map a_data xs = a_data x)).
  { intros f F1 F2 L ->. destruct (chunks_spec vs (a_data x) L) as [A1 [A2 A3]]. split; [|split; auto].
    - clear -F1 A3. induction A3 as [|v c vs cs Hc A3 IH]; simpl; constructor.
      + destruct (F1 v c) as [B1 B2]; [now left|]. split; congruence.
      + apply IH. intros. apply F1. now right.
    - intros _ FF. specialize (F2 FF). rewrite <- A2 at 2. clear -F2 A1. revert A1. generalize (chunks vs (a_data x)) as cs.
      induction vs as [|v vs IH]; intros [|c cs] A1; simpl in *; try discriminate; auto. rewrite F2 by auto. f_equal. apply IH; auto. }
  destruct (forallb _ vs).
  - destruct (Nat.eqb_spec (length (a_data x)) (total vs)) as [L|L]; [|discriminate]. injection H as H1.
    eapply G; [| |exact L|exact (eq_sym H1)]; intros; simpl; auto.
  - destruct (dtype_eqb _ _); [|discriminate]. destruct (Nat.eqb_spec (length (a_data x)) (total vs)) as [L|L]; [|discriminate]. injection H as H1.
    eapply G; [| |exact L|exact (eq_sym H1)]; simpl.
    + intros. now rewrite map_length.
    + intros FF v c Hv. rewrite Forall_forall in FF. destruct (FF v Hv) as [-> | ->]; simpl; apply map_id.
Qed.
Lemma unravel_list_ok : forall vs x, a_dtype x = promote_all vs -> length (a_data x) = total vs ->
  exists xs, unravel_list vs x = Ok xs /\ Forall2 (fun v y => a_dtype y = a_dtype v) vs xs.
Proof.
  intros vs x D L. unfold unravel_list. destruct vs as [|v0 r0]; [exists []; split; [reflexivity|constructor]|].
  remember (v0 :: r0) as vs eqn:E. clear E v0 r0. cbv zeta. destruct (chunks_spec vs (a_data x) L) as [A1 _].
  apply Nat.eqb_eq in L. rewrite L. destruct (forallb _ vs) eqn:F.
  - eexists. split; [reflexivity|]. rewrite forallb_forall in F. apply F2_zip_map; [auto|]. intros v c Hv. simpl. rewrite D. symmetry. apply dtype_eqb_eq, F.
    clear -Hv. revert Hv. generalize (chunks vs (a_data x)) as cs. induction vs as [|w vs IH]; intros [|d cs] Hv; simpl in *; try tauto.
    destruct Hv as [Hv|Hv]; [inversion Hv; auto|right; eauto].
  - rewrite D. assert (R : dtype_eqb (promote_all vs) (promote_all vs) = true) by (now apply dtype_eqb_eq). rewrite R.
    eexists. split; [reflexivity|]. apply F2_zip_map; auto.
Qed.
Lemma unravel_list_err : forall vs x, vs <> [] -> length (a_data x) <> total vs -> unravel_list vs x = Err TypeError.
Proof.
  intros vs x N L. unfold unravel_list. destruct vs as [|v r]; [congruence|]. cbv zeta. apply Nat.eqb_neq in L. rewrite L.
  destruct (forallb _ _); [reflexivity|]. destruct (dtype_eqb _ _); reflexivity.
Qed.

(** ** tzip *)
Lemma tzip_pair : forall {A B C} (f : A -> B -> C) (w : tree (A * B)),
  tzip f (map_tree fst w) (map_tree snd w) = Ok (map_tree (fun x => f (fst x) (snd x)) w).
Proof.
  intros A B C f w. induction w as [[a b]|l IH] using tree_ind'; [reflexivity|]. simpl.
  match goal with |- bind ?g _ = _ => assert (G : g = Ok (vmap (map_tree (fun x => f (fst x) (snd x))) l)) end.
  { induction l as [|[k s] r IHr]; [reflexivity|]. inversion IH as [|x y J1 J2]; subst. cbn [snd] in J1. simpl. rewrite String.eqb_refl, J1. cbn [bind].
    rewrite (IHr J2). reflexivity. }
  rewrite G. cbn [bind]. now rewrite <- map_node.
Qed.

(** ** rebuilding a tree and zipping it with the original *)
Lemma rebuild_zip : forall t vs t', ptree_ok t -> sorted t -> tree_unflatten (tree_def t) vs = Ok t' ->
  exists u : tree (option (param * array)), map_tree (option_map fst) u = t /\ map snd (somes (tleaves u)) = vs /\
    t' = map_tree (option_map (fun x => Param (snd x) (p_meta (fst x)))) u /\
    every (fun o => match o with Some x => fits (p_meta (fst x)) (snd x) | None => True end) u.
Proof.
  intros t vs t' T St E.
  pose proof (tree_unflatten_inv _ _ _ E) as F. rewrite defs_metas in F.
  destruct (rebuild_ok t vs T St F) as [t2 [E2 [T' [S' [D V]]]]]. rewrite E in E2. inversion E2; subst t2.
  assert (L : length vs = length (somes (tleaves t))).
  { apply F2_length in F. unfold metas, params_of in F. rewrite map_length, sorted_canon in F by auto. auto. }
  destruct (tree_zip t vs L) as [u [U1 U2]]. exists u. split; auto. split; auto. split.
  - apply tree_eq.
    + unfold tree_def in D. rewrite !sorted_canon in D by auto. rewrite D, <- U1, !map_map_tree. apply map_tree_ext, every_all. now intros [[]|].
    + unfold tree_values, params_of in V. rewrite sorted_canon in V by auto. rewrite V, tleaves_map, somes_map, map_map. exact (eq_sym U2).
  - apply every_leaves. unfold metas, params_of in F. rewrite sorted_canon in F by auto. rewrite <- U1, <- U2, tleaves_map, somes_map in F. clear -F.
    induction (tleaves u) as [|[x|] r IH]; [constructor| |constructor; [exact I|auto]].
    unfold somes in F. simpl in F. inversion F; subst. constructor; auto.
Qed.

Definition hleaf (x : option param * option (param * array)) : option param :=
  match fst x with
  | Some q => if m_trainable (p_meta q) then option_map (fun y => Param (snd y) (p_meta (fst y))) (snd x) else fst x
  | None => None end.
Definition wgood (x : option param * option (param * array)) : Prop :=
  match fst x with
  | Some p => if m_trainable (p_meta p) then exists v, snd x = Some (p, v) /\ fits (p_meta p) v else snd x = None
  | None => snd x = None end.
Lemma unravel_tree : forall t x t', ptree_ok t -> sorted t -> unravel_forward t x = Ok t' ->
  exists xs w, unravel_list (unbound t) x = Ok xs /\ map_tree fst w = t /\ t' = map_tree hleaf w /\ every wgood w /\
    map snd (somes (map snd (tleaves w))) = map (fun q => forward_arr (m_bijector (p_meta (fst q))) (snd q)) (zip (trainables t) xs).
Proof.
  intros t x t' T St H. unfold unravel_forward in H. apply bind_ok in H. destruct H as [xs [U H]]. cbv zeta in H. rewrite truncate_params in H.
  apply bind_ok in H. destruct H as [tn [TT H]]. rewrite sorted_canon in H by auto.
  assert (ST : sorted (truncate t)) by (now apply sorted_map).
  destruct (rebuild_zip _ _ _ (truncate_ok t T) ST TT) as [u [U1 [U2 [U3 U4]]]].
  assert (SN : same_names t u).
  { unfold same_names. transitivity (map_tree (fun _ => tt) (map_tree (option_map fst) u)); [rewrite U1; unfold truncate|]; now rewrite map_map_tree. }
  destruct (tree_pair _ _ SN) as [w [W1 W2]]. exists xs, w. split; auto. split; auto. split; [|split].
  - rewrite U3, W2, map_map_tree in H. rewrite W1 in H at 1.
    replace (map_tree (fun y : option param * option (param * array) => option_map (fun z => Param (snd z) (p_meta (fst z))) (snd y)) w)
      with (map_tree snd (map_tree (fun y : option param * option (param * array) => (fst y, option_map (fun z => Param (snd z) (p_meta (fst z))) (snd y))) w)) in H
      by (now rewrite map_map_tree).
    replace (map_tree fst w) with (map_tree fst (map_tree (fun y : option param * option (param * array) => (fst y, option_map (fun z => Param (snd z) (p_meta (fst z))) (snd y))) w)) in H
      by (now rewrite map_map_tree).
    rewrite tzip_pair, map_map_tree in H. inversion H. apply map_tree_ext, every_all. now intros [[p|] o].
  - assert (E : map_tree (fun y => option_map fst (snd y)) w = map_tree (fun y => trunc1 (fst y)) w).
    { transitivity (truncate t); [rewrite <- U1, W2; now rewrite map_map_tree|]. unfold truncate. fold trunc1. rewrite W1 at 1. now rewrite map_map_tree. }
    apply map_tree_inj in E. rewrite W2 in U4. apply (proj1 (every_map snd _ w)) in U4.
    apply every_leaves. apply every_leaves in E. apply every_leaves in U4. clear -E U4.
    induction (tleaves w) as [|[o o'] r IH]; [constructor|]. inversion E; inversion U4; subst. constructor; [|now apply IH].
    cbn [fst snd] in *. unfold wgood. cbn [fst snd]. destruct o as [p|]; simpl in H1.
    + destruct (m_trainable (p_meta p)); destruct o' as [[q v]|]; simpl in H1; inversion H1; subst; eauto.
    + destruct o'; [discriminate|reflexivity].
  - rewrite <- U2, W2, tleaves_map. reflexivity.
Qed.
Lemma wgood_trainables : forall w : tree (option param * option (param * array)), every wgood w -> sorted w ->
  trainables (map_tree hleaf w) = map (fun y => Param (snd y) (p_meta (fst y))) (somes (map snd (tleaves w))) /\
  trainables (map_tree fst w) = map fst (somes (map snd (tleaves w))).
Proof.
  intros w G St. unfold trainables, params_of. rewrite !sorted_canon by (now apply sorted_map). rewrite !tleaves_map. apply every_leaves in G.
  induction G as [|[o o'] r Hx G IH]; [split; reflexivity|]. destruct IH as [I1 I2]. unfold somes in *. cbn [map flat_map snd fst hleaf].
  unfold wgood in Hx. cbn [fst snd] in Hx. unfold hleaf at 1. cbn [fst snd]. destruct o as [p|].
  - destruct (m_trainable (p_meta p)) eqn:Tp.
    + destruct Hx as [v [-> F]]. cbn [option_map]. simpl. rewrite Tp. simpl. split; f_equal; auto.
    + subst o'. simpl. rewrite Tp. auto.
  - subst o'. auto.
Qed.
Lemma unravel_inv : forall t x t', ptree_ok t -> sorted t -> unravel_forward t x = Ok t' ->
  exists xs, unravel_list (unbound t) x = Ok xs /\ ptree_ok t' /\ sorted t' /\ tree_def t' = tree_def t /\ only_trainables t t' /\
    map p_meta (trainables t') = map p_meta (trainables t) /\
    map p_value (trainables t') = map (fun q => forward_arr (m_bijector (p_meta (fst q))) (snd q)) (zip (trainables t) xs).
Proof.
  intros t x t' T St H. destruct (unravel_tree t x t' T St H) as [xs [w [U [W1 [W2 [G V]]]]]].
  assert (SW : sorted w).
  { clear -W1 St. subst t. revert St. generalize w. clear. intro w. induction w as [a|l IH] using tree_ind'; intro S; [exact I|].
    rewrite map_node in S. apply sorted_node in S. apply sorted_node. rewrite vmap_keys in S. destruct S as [S1 S2]. split; auto.
    apply Forall_vmap in S2. rewrite Forall_forall in *. intros kv Hkv. apply (IH _ Hkv). apply (S2 _ Hkv). }
  destruct (wgood_trainables w G SW) as [T1 T2]. exists xs. split; auto.
  assert (M : map_tree (option_map p_meta) t' = map_tree (option_map p_meta) t).
  { rewrite W2, <- W1, !map_map_tree. apply map_tree_ext. eapply every_impl; [|exact G]. intros [[p|] o] Hx; unfold wgood in Hx; unfold hleaf; cbn [fst snd] in *; auto.
    destruct (m_trainable (p_meta p)); auto. destruct Hx as [v [-> _]]. reflexivity. }
  assert (OK : every opt_ok t').
  { rewrite W2. apply every_map. destruct T as [_ E]. rewrite <- W1 in E. apply (proj1 (every_map fst opt_ok w)) in E.
    apply every_leaves. apply every_leaves in E. apply every_leaves in G. clear -E G. induction (tleaves w) as [|[o o'] r IH]; inversion E as [|? ? E1 E2]; inversion G as [|? ? G1 G2]; subst; constructor; auto.
    unfold hleaf. unfold wgood in G1. cbn [fst snd] in *. destruct o as [p|]; [|exact I]. destruct (m_trainable (p_meta p)); [|exact E1].
    destruct G1 as [v [-> F]]. exact F. }
  assert (S' : sorted t') by (rewrite W2; now apply sorted_map).
  split; [split; auto|].
  { apply (kd_map (option_map p_meta)). rewrite M. apply kd_map. apply T. }
  split; auto. split; [unfold tree_def; now rewrite !sorted_canon by auto|]. split; [|split].
  - split.
    + unfold same_names. rewrite W2, <- W1, !map_map_tree. reflexivity.
    + intro path. rewrite <- W1, W2, !lookup_map. destruct (lookup path w) as [[o o']|] eqn:L; [|reflexivity]. cbn [option_map].
      pose proof (every_lookup' _ _ _ _ G L) as Hx. unfold wgood in Hx. unfold hleaf. cbn [fst snd] in *. destruct o as [p|]; [|reflexivity].
      destruct (m_trainable (p_meta p)) eqn:Tp.
      * destruct Hx as [v [-> F]]. exists v. split; [reflexivity|]. congruence.
      * exists (p_value p). split; auto. now rewrite param_eta.
  - rewrite W2, T1, <- W1, T2, !map_map. reflexivity.
  - rewrite W2, T1, !map_map. cbn [p_value]. rewrite <- V. reflexivity.
Qed.
Lemma bij_dtype_floating : forall b d, floating d -> bij_dtype b d = d.
Proof. intros b d [-> | ->]; destruct b; reflexivity. Qed.
Lemma unbound_eq : forall t, unbound t = map (fun p => backward_arr (m_bijector (p_meta p)) (p_value p)) (trainables t).
Proof. intro t. unfold unbound. now rewrite truncate_params. Qed.
Lemma unravel_succeeds : forall t x, ptree_ok t -> sorted t -> float_tree t -> a_dtype x = a_dtype (ravel_backward t) ->
  length (a_data x) = length (coords t) -> exists t', unravel_forward t x = Ok t'.
Proof.
  intros t x T St FT D L. unfold float_tree in FT. rewrite on_trainable_list in FT. pose proof (trainables_ok t T) as PO.
  assert (TL : total (unbound t) = length (coords t)).
  { rewrite unbound_eq. unfold coords. clear. induction (trainables t) as [|p r IH]; simpl; auto. rewrite app_length, repeat_length, IH. reflexivity. }
  destruct (unravel_list_ok (unbound t) x) as [xs [U UD]]; [exact D|congruence|].
  pose proof (proj1 (unravel_list_inv _ _ _ U)) as US.
  unfold unravel_forward. rewrite U. cbn [bind]. cbv zeta. rewrite truncate_params.
  set (ys := map (fun q => forward_arr (m_bijector (p_meta (fst q))) (snd q)) (zip (trainables t) xs)).
  assert (ST : sorted (truncate t)) by (now apply sorted_map).
  assert (F : Forall2 fits (metas (truncate t)) ys).
  { unfold metas. rewrite truncate_params. apply F2_map_l. unfold ys. rewrite unbound_eq in UD, US.
    clear -UD US PO FT. revert xs UD US. induction (trainables t) as [|p r IH]; intros [|y xs] UD US; simpl in UD, US; try (now inversion UD); [constructor|].
    inversion UD as [|? ? ? ? D1 D2]; inversion US as [|? ? ? ? S1 S2]; subst.
    inversion PO as [|? ? PP1 PP2]; inversion FT as [|? ? FF1 FF2]; subst. simpl.
    constructor; [|apply IH; auto]. destruct S1 as [S1 _]. destruct PP1 as [P1 P2]. unfold fits, forward_arr. cbn [a_shape a_dtype fst snd]. split.
    - rewrite S1. exact P1.
    - rewrite D1. unfold backward_arr. cbn [a_dtype]. rewrite P2. now rewrite !(bij_dtype_floating _ _ FF1). }
  destruct (rebuild_ok _ _ (truncate_ok t T) ST F) as [tn [E _]]. rewrite E. cbn [bind].
  assert (OK : exists t', tzip (fun p0 p => match p0 with Some q => if m_trainable (p_meta q) then p else p0 | None => None end) (canon t) tn = Ok t'); [|exact OK].
  destruct (rebuild_zip _ _ _ (truncate_ok t T) ST E) as [u [U1 [_ [U3 _]]]].
  assert (SN : same_names (canon t) tn).
  { rewrite sorted_canon by auto. unfold same_names. rewrite U3, map_map_tree. transitivity (map_tree (fun _ => tt) (map_tree (option_map fst) u)); [|now rewrite map_map_tree].
    rewrite U1. unfold truncate. now rewrite map_map_tree. }
  destruct (tree_pair _ _ SN) as [w [W1 W2]]. rewrite W1, W2, tzip_pair. eauto.
Qed.
Lemma unravel_wrong_length : forall t x, trainables t <> [] -> length (a_data x) <> length (coords t) -> unravel_forward t x = Err TypeError.
Proof.
  intros t x N L. unfold unravel_forward. rewrite unravel_list_err; [reflexivity| |].
  - rewrite unbound_eq. destruct (trainables t); [congruence|discriminate].
  - assert (TL : total (unbound t) = length (coords t)); [|congruence].
    rewrite unbound_eq. unfold coords. clear. induction (trainables t) as [|p r IH]; simpl; auto. rewrite app_length, repeat_length, IH. reflexivity.
Qed.
