(** Optimiser vectors, strategies, NLopt. *)
From Coq Require Import String List Bool Arith Reals Permutation Lia Lra.
From Verif Require Import Model.PyDict Model.Bijectors Model.Priors Model.Params Model.State Model.Optim Spec.DictSpec Spec.StateSpec Spec.BijectorSpec
  Spec.RandomSpec Spec.OptimSpec Proofs.BijectorLemmas Proofs.DictFacts Proofs.TreeFacts Proofs.StateFacts Proofs.UpdateFacts Proofs.SaveLoad
  Proofs.RandomFacts Proofs.StatePropLemmas Proofs.OptimFacts.
Import ListNotations.
Open Scope string_scope.
Open Scope nat_scope.

(** ** entries *)
Lemma zip_app : forall {A B} (a a' : list A) (b b' : list B), length a = length b -> zip (a ++ a') (b ++ b') = (zip a b ++ zip a' b')%list.
Proof. intros A B a. induction a as [|x a IH]; intros a' [|y b] b' L; simpl in *; try discriminate; auto. f_equal. apply IH. auto. Qed.
Lemma zip_repeat : forall {A B C} (f : A -> B -> C) a (b : list B) n, length b = n -> map (f a) b = map (fun q => f (fst q) (snd q)) (zip (repeat a n) b).
Proof. intros A B C f a b. induction b as [|y b IH]; intros n <-; simpl; auto. f_equal. now apply IH. Qed.
Lemma nth_zip : forall {A B} (a : list A) (b : list B) i, nth_error (zip a b) i =
  match nth_error a i, nth_error b i with Some x, Some y => Some (x, y) | _, _ => None end.
Proof.
  intros A B a. induction a as [|x a IH]; intros [|y b] [|i]; simpl; auto; try (destruct (nth_error a i); reflexivity). 
Qed.
Lemma dtypes_floating : forall t, ptree_ok t -> float_tree t -> Forall (fun v => floating (a_dtype v)) (unbound t).
Proof.
  intros t T F. rewrite unbound_eq. unfold float_tree in F. rewrite on_trainable_list in F. pose proof (trainables_ok t T) as P.
  induction (trainables t) as [|p r IH]; simpl; constructor; inversion F; inversion P; subst; auto.
  destruct H5 as [_ D]. cbn. rewrite D. rewrite bij_dtype_floating; auto.
Qed.
Lemma entries_unravel : forall t x t', ptree_ok t -> sorted t -> float_tree t -> unravel_forward t x = Ok t' ->
  entries t' = map (fun q => omap (forward (fst q)) (snd q)) (zip (coords t) (a_data x)).
Proof.
  intros t x t' T St F H. destruct (unravel_inv t x t' T St H) as [xs [U [_ [_ [_ [_ [_ V]]]]]]].
  destruct (unravel_list_inv _ _ _ U) as [S1 [S2 S3]]. pose proof (dtypes_floating t T F) as DF.
  assert (E : entries t' = flat_map a_data (map p_value (trainables t'))).
  { unfold entries. generalize (trainables t'). intro l. induction l; simpl; auto. now rewrite IHl. }
  rewrite E, V. rewrite unbound_eq in *. unfold coords.
  assert (G : forall ps xs, Forall2 (fun v y => a_shape y = a_shape v /\ length (a_data y) = size_of (a_shape v))
    (map (fun p => backward_arr (m_bijector (p_meta p)) (p_value p)) ps) xs ->
    flat_map a_data (map (fun q => forward_arr (m_bijector (p_meta (fst q))) (snd q)) (zip ps xs)) =
    map (fun q => omap (forward (fst q)) (snd q))
     (zip (flat_map (fun p => repeat (m_bijector (p_meta p)) (size_of (a_shape (p_value p)))) ps) (flat_map a_data xs))).
  { clear. induction ps as [|p ps IH]; intros [|y ys] H; simpl in H; inversion H as [|? ? ? ? [A1 A2] B]; subst; [reflexivity|]. simpl.
    rewrite zip_app by (now rewrite repeat_length). rewrite map_app, <- IH by auto. f_equal.
    now apply (zip_repeat (fun b x => omap (forward b) x)). }
  rewrite G by exact S1. destruct (trainables t) as [|p0 r0] eqn:Et; [reflexivity|]. rewrite S3; auto; discriminate.
Qed.
Lemma coords_same : forall t t', ptree_ok t -> ptree_ok t' -> map p_meta (trainables t') = map p_meta (trainables t) -> coords t' = coords t.
Proof.
  intros t t' T T' M. pose proof (trainables_ok t T) as P. pose proof (trainables_ok t' T') as P'. unfold coords. revert M P P'.
  generalize (trainables t) as l, (trainables t') as l'. induction l as [|p l IH]; intros [|p' l'] M P P'; try discriminate; auto.
  injection M as M1 M2. inversion P as [|? ? [A1 _] A2]; inversion P' as [|? ? [B1 _] B2]; subst. simpl. rewrite (IH l') by auto. now rewrite A1, B1, M1.
Qed.
Lemma entries_ravel : forall t, full_tree t -> a_data (ravel_backward t) = map (fun q => obind (snd q) (backward (fst q))) (zip (coords t) (entries t)).
Proof.
  intros t F. unfold full_tree in F. rewrite on_trainable_list in F. unfold ravel_backward, ravel_list. cbv zeta. cbn [a_data]. rewrite unbound_eq. unfold coords, entries.
  induction F as [|p r Hp F IH]; [reflexivity|]. cbn [map flat_map]. rewrite zip_app by (now rewrite repeat_length). rewrite map_app. f_equal; [|exact IH].
  now apply (zip_repeat (fun b x => obind x (backward b))).
Qed.
Lemma entries_length : forall t, full_tree t -> length (entries t) = length (coords t).
Proof.
  intros t F. unfold full_tree in F. rewrite on_trainable_list in F. unfold coords, entries. induction F as [|p r Hp F IH]; [reflexivity|]. simpl.
  now rewrite !app_length, repeat_length, IH, Hp.
Qed.
Lemma ravel_length : forall t, full_tree t -> length (a_data (ravel_backward t)) = length (coords t).
Proof. intros t F. rewrite entries_ravel, map_length, zip_length; auto. now rewrite entries_length. Qed.
Lemma unravel_full : forall t x t', ptree_ok t -> sorted t -> unravel_forward t x = Ok t' -> full_tree t'.
Proof.
  intros t x t' T St H. destruct (unravel_inv t x t' T St H) as [xs [U [T' [_ [_ [_ [M V]]]]]]]. destruct (unravel_list_inv _ _ _ U) as [S1 _].
  unfold full_tree. apply on_trainable_list. rewrite unbound_eq in S1. revert M V S1. generalize (trainables t) as ps, (trainables t') as qs. clear.
  intros ps qs M V S1. revert qs xs M V S1. induction ps as [|p ps IH]; intros [|q qs] [|y ys] M V S; try discriminate; [constructor|constructor|].
  simpl in *. injection V as V1 V2. injection M as M1 M2. inversion S as [|? ? ? ? [A1 A2] A3]; subst. constructor; eauto.
  rewrite V1. unfold forward_arr. cbn [a_data a_shape]. rewrite map_length, A1. exact A2.
Qed.
Lemma ravel_unravel : forall t x t', ptree_ok t -> sorted t -> float_tree t -> length (a_data x) = length (coords t) -> unravel_forward t x = Ok t' ->
  a_shape (ravel_backward t') = [length (a_data x)] /\
  forall i b r, nth_error (coords t) i = Some b -> nth_error (a_data x) i = Some (Some r) -> bij_ok b ->
    match b with SoftMinMax _ _ => (round_err b r <= 1)%R | _ => True end ->
    exists r', nth_error (a_data (ravel_backward t')) i = Some (Some r') /\ (Rabs (r' - r) <= round_err b r)%R.
Proof.
  intros t x t' T St F L H. pose proof (unravel_full t x t' T St H) as FU. pose proof (entries_unravel t x t' T St F H) as E.
  destruct (unravel_inv t x t' T St H) as [xs [_ [T' [_ [_ [_ [M _]]]]]]]. pose proof (coords_same t t' T T' M) as C. split.
  - unfold ravel_backward, ravel_list. cbv zeta. cbn [a_shape]. f_equal. transitivity (length (a_data (ravel_backward t'))); [reflexivity|].
    rewrite ravel_length by auto. congruence.
  - intros i b r Hb Hx B RC. rewrite entries_ravel, C, E by auto.
    destruct (backward_forward b r B RC) as [r' [R1 R2]]. exists r'. split; [|exact R2].
    assert (IN : nth_error (map (fun q => omap (forward (fst q)) (snd q)) (zip (coords t) (a_data x))) i = Some (Some (forward b r))).
    { erewrite map_nth_error; [|rewrite nth_zip, Hb; setoid_rewrite Hx; reflexivity]. reflexivity. }
    erewrite map_nth_error; [|rewrite nth_zip, Hb; setoid_rewrite IN; reflexivity]. cbn. now rewrite R1.
Qed.
Lemma unravel_ravel : forall t t', ptree_ok t -> sorted t -> float_tree t -> full_tree t -> unravel_forward t (ravel_backward t) = Ok t' ->
  forall i b y, nth_error (coords t) i = Some b -> nth_error (entries t) i = Some (Some y) -> bij_ok b -> backward_dom b y ->
    exists y', nth_error (entries t') i = Some (Some y') /\ (Rabs (y' - y) <= / 10 ^ 300)%R.
Proof.
  intros t t' T St F FU H i b y Hb Hy B D. rewrite (entries_unravel t _ t' T St F H), entries_ravel by auto.
  destruct (forward_backward b y B D) as [r [R1 R2]]. exists (forward b r). split; [|exact R2].
  assert (IN : nth_error (map (fun q => obind (snd q) (backward (fst q))) (zip (coords t) (entries t))) i = Some (Some r)).
  { erewrite map_nth_error; [|rewrite nth_zip, Hb; setoid_rewrite Hy; reflexivity]. cbn. now rewrite R1. }
  erewrite map_nth_error; [|rewrite nth_zip, Hb; setoid_rewrite IN; reflexivity]. reflexivity.
Qed.
Lemma unravel_ravel_ok : forall t, ptree_ok t -> sorted t -> float_tree t -> full_tree t -> exists t', unravel_forward t (ravel_backward t) = Ok t'.
Proof. intros t T St F FU. apply unravel_succeeds; auto. now apply ravel_length. Qed.

(** ** ranges *)
Lemma unravel_ranges : forall t x t', ptree_ok t -> sorted t -> bijs_ok t -> unravel_forward t x = Ok t' -> in_ranges t'.
Proof.
  intros t x t' T St B H. destruct (unravel_inv t x t' T St H) as [xs [U [_ [_ [_ [_ [M V]]]]]]]. unfold in_ranges. apply on_trainable_list.
  unfold bijs_ok in B. rewrite on_trainable_list in B. revert xs M V U B. generalize (unbound t). intros ub xs M V _ B. revert M V B. generalize (trainables t) as ps, (trainables t') as qs. clear.
  intros ps qs. revert qs xs. induction ps as [|p ps IH]; intros [|q qs] [|y ys] M V B; try discriminate; [constructor|constructor|].
  simpl in *. injection V as V1 V2. injection M as M1 M2. inversion B; subst. constructor; eauto. rewrite V1, M1. unfold forward_arr. cbn [a_data].
  apply Forall_forall. intros o Ho z ->. apply in_map_iff in Ho. destruct Ho as [[r|] [E _]]; [|discriminate]. simpl in E. inversion E. now apply forward_range.
Qed.
Lemma unravel_legal : forall t x t', ptree_ok t -> sorted t -> bijs_ok t -> float_tree t -> all_real x -> unravel_forward t x = Ok t' ->
  on_trainable (fun p => legal (m_bijector (p_meta p)) (p_value p)) t'.
Proof.
  intros t x t' T St B F R H. pose proof (unravel_ranges t x t' T St B H) as IR. pose proof (entries_unravel t x t' T St F H) as E.
  unfold in_ranges in IR. rewrite on_trainable_list in *.
  assert (NN : Forall (fun o => o <> None) (entries t')).
  { rewrite E. clear -R. apply Forall_forall. intros o Ho. apply in_map_iff in Ho. destruct Ho as [[b o'] [<- Ho]].
    assert (I : In o' (a_data x)).
    { clear -Ho. revert Ho. generalize (coords t) as a, (a_data x) as b'. intro a. induction a as [|c a IH]; intros [|d b'] H; simpl in *; try tauto.
      destruct H as [H|H]; [inversion H; auto|right; eauto]. }
    unfold all_real in R. rewrite Forall_forall in R. apply R in I. cbn. destruct o'; simpl; congruence. }
  unfold entries in NN. clear -IR NN. induction IR as [|p r Hp IR IH]; constructor; simpl in NN; apply Forall_app in NN; destruct NN as [N1 N2]; auto.
  unfold legal. apply Forall_forall. intros o Ho. rewrite Forall_forall in Hp, N1. destruct o as [y|]; [|exfalso; apply (N1 None Ho); reflexivity].
  exists y. split; auto. exact (Hp _ Ho _ eq_refl).
Qed.

(** ** states *)
Lemma with_params_ok : forall s t, state_ok s -> ptree_ok t -> sorted t -> with_params s t = Ok (State (s_kernel s) (s_mean s) t (s_register s)).
Proof.
  intros s t S T St. unfold with_params. rewrite update_eq. unfold pick. cbn [get]. rewrite String.eqb_refl.
  replace (String.eqb "kernel" "params") with false by reflexivity. replace (String.eqb "mean_function" "params") with false by reflexivity.
  rewrite set_params_ok by apply T. rewrite sorted_canon by auto. cbn [bind]. do 2 f_equal.
  change (rest_of [("params", OParams t)]) with (@nil (string * obj)). unfold merge. simpl. apply norm_id.
  destruct S as [_ [_ [_ [F _]]]]. eapply Forall_impl; [|exact F]. intros kv J. apply J.
Qed.
Lemma with_params_state_ok : forall s t, state_ok s -> ptree_ok t -> sorted t -> state_ok (State (s_kernel s) (s_mean s) t (s_register s)).
Proof. intros s t [_ [_ [A [B [C D]]]]] T St. repeat (split; [assumption|]). assumption. Qed.
(** t gives the structure, s the rest *)
Lemma reached : forall t s x p u, ptree_ok t -> sorted t -> state_ok s -> unravel_forward t x = Ok p -> with_params s p = Ok u ->
  u = State (s_kernel s) (s_mean s) p (s_register s) /\ state_ok u /\ only_trainables t p.
Proof.
  intros t s x p u T St S H W. destruct (unravel_inv t x p T St H) as [xs [_ [T' [S' [_ [O _]]]]]]. rewrite with_params_ok in W by auto. inversion W; subst.
  repeat split; auto; try apply S; try apply O; apply T'.
Qed.
Lemma play_inv : forall {A B} (eval : array -> result (state * A)) (P : state -> Prop) (st : strategy A B),
  (forall x s a, eval x = Ok (s, a) -> P s) -> Forall P (snd (play eval st)).
Proof.
  intros A B eval P st H. induction st as [b|x k IH]; simpl; [constructor|]. destruct (eval x) as [[s a]|e] eqn:E; simpl; constructor; eauto.
Qed.
Lemma play_ext : forall {A B} (e e' : array -> result (state * A)) (st : strategy A B), (forall x, e x = e' x) -> play e st = play e' st.
Proof. intros A B e e' st H. induction st as [b|x k IH]; simpl; [reflexivity|]. rewrite <- H. destruct (e x) as [[s a]|]; [now rewrite IH|reflexivity]. Qed.
Lemma objective_inv : forall {A} t s (loss : array -> state -> result A) x u a, ptree_ok t -> sorted t -> state_ok s ->
  objective t s loss x = Ok (u, a) -> exists p, unravel_forward t x = Ok p /\ u = State (s_kernel s) (s_mean s) p (s_register s) /\ state_ok u /\ only_trainables t p.
Proof.
  intros A t s loss x u a T St S H. unfold objective in H. apply bind_ok in H. destruct H as [p [Hp H]]. apply bind_ok in H. destruct H as [u' [Hu H]].
  apply bind_ok in H. destruct H as [a' [_ H]]. inversion H; subst. exists p. split; auto. eapply reached; eauto.
Qed.
Definition visited_ok (s u : state) : Prop :=
  state_ok u /\ only_trainables_state s u /\ (bijs_ok (s_params s) -> in_ranges (s_params u)).
Lemma visited : forall s x p, state_ok s -> unravel_forward (s_params s) x = Ok p -> only_trainables (s_params s) p ->
  state_ok (State (s_kernel s) (s_mean s) p (s_register s)) -> visited_ok s (State (s_kernel s) (s_mean s) p (s_register s)).
Proof.
  intros s x p S H O SO. split; auto. split; [repeat split; auto; apply O|]. intro B. cbn [s_params]. eapply unravel_ranges; eauto; apply S.
Qed.
Lemma scipy_visits : forall {A} (loss : array -> state -> result A) minimize s, state_ok s ->
  Forall (visited_ok s) (snd (scipy_minimize loss minimize s)) /\
  (forall s', fst (scipy_minimize loss minimize s) = Ok s' -> visited_ok s s').
Proof.
  intros A loss minimize s S. split.
  - apply play_inv. intros x u a H. destruct (objective_inv (s_params s) s loss x u a) as [p [H1 [-> [H2 H3]]]]; auto; try apply S. eapply visited; eauto.
  - intros s' H. cbn in H. apply bind_ok in H. destruct H as [x [_ H]]. apply bind_ok in H. destruct H as [p [Hp H]].
    destruct (reached (s_params s) s x p s') as [-> [H1 H2]]; auto; try apply S. eapply visited; eauto.
Qed.
Lemma play_reals : forall {A} (eval : array -> result (state * A)) (P : state -> Prop) (st : strategy A array), proposes_reals st ->
  (forall x s a, all_real x -> eval x = Ok (s, a) -> P s) -> Forall P (snd (play eval st)) /\ (forall x, fst (play eval st) = Ok x -> all_real x).
Proof.
  intros A eval P st R H. induction R as [x Hx|x k Hx _ IH]; simpl.
  - split; [constructor|]. intros y E. now inversion E; subst.
  - destruct (eval x) as [[s a]|e] eqn:E; simpl.
    + destruct (IH a) as [I1 I2]. split; [constructor; eauto|exact I2].
    + split; [constructor|discriminate].
Qed.
Lemma scipy_legal : forall {A} (loss : array -> state -> result A) minimize s, state_ok s -> bijs_ok (s_params s) -> float_tree (s_params s) ->
  proposes_reals (minimize (ravel_backward (s_params s))) ->
  Forall all_legal (snd (scipy_minimize loss minimize s)) /\ (forall s', fst (scipy_minimize loss minimize s) = Ok s' -> all_legal s').
Proof.
  intros A loss minimize s S B F R.
  destruct (play_reals (objective (s_params s) s loss) all_legal _ R) as [R1 R2].
  { intros x u a Hx H. destruct (objective_inv (s_params s) s loss x u a) as [p [H1 [-> _]]]; auto; try apply S.
    unfold all_legal. cbn [s_params]. eapply unravel_legal; eauto; apply S. }
  split; [exact R1|]. intros s' H. cbn in H. apply bind_ok in H. destruct H as [x [Hx H]]. apply bind_ok in H. destruct H as [p [Hp H]].
  destruct (reached (s_params s) s x p s') as [-> _]; auto; try apply S. unfold all_legal. cbn [s_params]. eapply unravel_legal; eauto; try apply S.
Qed.

(** ** NLopt *)
Lemma nlopt_result : forall {A} w (loss : array -> state -> result A) minimize s s', state_ok w -> state_ok s ->
  fst (nlopt_optimize w loss minimize s) = Ok s' ->
  s_kernel s' = s_kernel s /\ s_mean s' = s_mean s /\ s_register s' = s_register s /\ only_trainables (s_params w) (s_params s') /\
  exists x, fst (play (objective (s_params w) s loss) (minimize (ravel_backward (s_params s)))) = Ok x /\
    (float_tree (s_params w) -> entries (s_params s') = map (fun q => omap (forward (fst q)) (snd q)) (zip (coords (s_params w)) (a_data x))).
Proof.
  intros A w loss minimize s s' W S H. cbn in H. apply bind_ok in H. destruct H as [x [Hx H]]. apply bind_ok in H. destruct H as [p [Hp H]].
  destruct (reached (s_params w) s x p s') as [-> [H1 H2]]; auto; try apply W. cbn [s_kernel s_mean s_register s_params].
  repeat (split; [auto|]). exists x. split; auto. intro F. eapply entries_unravel; eauto; apply W.
Qed.
Lemma unravel_list_ext : forall vs vs' x, Forall2 (fun a b => a_shape a = a_shape b /\ a_dtype a = a_dtype b) vs vs' -> unravel_list vs x = unravel_list vs' x.
Proof.
  intros vs vs' x F. unfold unravel_list. destruct F as [|a b l l' [H1 H2] F]; [reflexivity|].
  assert (P : promote_all (a :: l) = promote_all (b :: l')).
  { cbn. rewrite H2. generalize (a_dtype b) as d. clear -F. induction F as [|a0 b0 l0 l0' [G1 G2] F0 IH]; intro d; simpl; auto. rewrite G2. apply IH. }
  rewrite P. cbv zeta. set (to := promote_all (b :: l')).
  assert (Q : forallb (fun v => dtype_eqb (a_dtype v) to) (a :: l) = forallb (fun v => dtype_eqb (a_dtype v) to) (b :: l')).
  { simpl. rewrite H2. f_equal. generalize to as to'. clear -F. intro to'. induction F as [|a0 b0 l0 l0' [G1 G2] F0 IH]; simpl; auto. rewrite G2. now f_equal. }
  rewrite Q. assert (F' : Forall2 (fun a b => a_shape a = a_shape b /\ a_dtype a = a_dtype b) (a :: l) (b :: l')) by (constructor; auto).
  assert (TT : total (a :: l) = total (b :: l')).
  { clear -F'. induction F' as [|a0 b0 l0 l0' [G1 G2] F0 IH]; simpl; auto. now rewrite G1, IH. }
  rewrite TT.
  assert (C : forall data, chunks (a :: l) data = chunks (b :: l') data).
  { clear -F'. induction F' as [|a0 b0 l0 l0' [G1 G2] F0 IH]; intro data; simpl; auto. now rewrite G1, IH. }
  rewrite C.
  assert (M : forall (f : array * list num -> array), (forall v v' c, a_shape v = a_shape v' -> a_dtype v = a_dtype v' -> f (v, c) = f (v', c)) ->
    forall cs, map f (zip (a :: l) cs) = map f (zip (b :: l') cs)).
  { clear -F'. intros f Hf. induction F' as [|a0 b0 l0 l0' [G1 G2] F0 IH]; intro cs; simpl; auto. destruct cs as [|c cs]; simpl; auto. rewrite IH. f_equal. auto. }
  rewrite (M (fun vc => Arr (a_shape (fst vc)) (a_dtype x) (snd vc))) by (intros v v' c E1 E2; simpl; now rewrite E1).
  rewrite (M (fun vc => Arr (a_shape (fst vc)) (a_dtype (fst vc)) (map (cast_num (a_dtype (fst vc))) (snd vc)))) by (intros v v' c E1 E2; simpl; now rewrite E1, E2).
  reflexivity.
Qed.
Lemma tzip_ext : forall {A B C} (f : A -> B -> C) (u : tree (A * A)) b, every (fun x => forall y, f (fst x) y = f (snd x) y) u ->
  tzip f (map_tree fst u) b = tzip f (map_tree snd u) b.
Proof.
  intros A B C f u. induction u as [[x y]|l IH] using tree_ind'; intros [z|m] E; try reflexivity.
  - simpl in *. now rewrite E.
  - apply every_node in E. simpl. f_equal. revert m. induction l as [|[k s] r IHr]; intros [|[k' s'] r']; try reflexivity.
    inversion IH as [|? ? J1 J2]; inversion E as [|? ? E1 E2]; subst. simpl. destruct (String.eqb k k'); [|reflexivity].
    cbn [snd] in *. rewrite (J1 s' E1). destruct (tzip f (map_tree snd s) s'); cbn [bind]; [|reflexivity]. now rewrite (IHr J2 E2).
Qed.
Lemma unravel_indep : forall t t' x, ptree_ok t -> ptree_ok t' -> sorted t -> sorted t' -> same_frozen t t' -> unravel_forward t x = unravel_forward t' x.
Proof.
  intros t t' x T T' St St' [SN H].
  destruct (tree_pair _ _ SN) as [u [U1 U2]].
  assert (KU : keys_distinct u) by (apply (kd_map fst); rewrite <- U1; apply T).
  set (R := fun q : option param * option param => match fst q, snd q with
    | Some p, Some p' => p_meta p = p_meta p' /\ (m_trainable (p_meta p) = false -> p_value p = p_value p') | a, b => a = b end).
  assert (E : every R u).
  { apply every_lookup; auto. intros path q Lq. specialize (H path). rewrite U1, U2, !lookup_map, Lq in H. cbn [option_map] in H.
    unfold R. destruct (fst q), (snd q); congruence || exact H. }
  assert (EO : every (fun q => opt_ok (fst q) /\ opt_ok (snd q)) u).
  { destruct T as [_ O], T' as [_ O']. rewrite U1 in O. rewrite U2 in O'. apply (proj1 (every_map fst opt_ok u)) in O. apply (proj1 (every_map snd opt_ok u)) in O'.
    apply every_leaves. apply every_leaves in O. apply every_leaves in O'. clear -O O'. induction (tleaves u); inversion O; inversion O'; subst; constructor; auto. }
  assert (F : Forall2 (fun p p' => p_meta p = p_meta p' /\ param_ok p /\ param_ok p') (trainables t) (trainables t')).
  { unfold trainables, params_of. rewrite !sorted_canon by auto. rewrite U1, U2, !tleaves_map. apply every_leaves in E. apply every_leaves in EO. clear -E EO.
    induction (tleaves u) as [|[[p|] [p'|]] r IH]; [constructor| | | |]; inversion E as [|? ? E1 E2]; inversion EO as [|? ? O1 O2]; subst; unfold R in E1; unfold somes in *; simpl in *; try constructor; try discriminate; auto.
    destruct E1 as [E1 _]. rewrite <- E1. destruct (m_trainable (p_meta p)); [constructor; [tauto|]|]; apply IH; auto. }
  assert (UB : unravel_list (unbound t) x = unravel_list (unbound t') x).
  { apply unravel_list_ext. rewrite !unbound_eq. clear -F. induction F as [|p p' l l' [M [[A1 A2] [B1 B2]]] F IH]; simpl; constructor; auto.
    cbn. rewrite A1, A2, B1, B2, M. auto. }
  unfold unravel_forward. rewrite UB. destruct (unravel_list (unbound t') x) as [xs|e]; [|reflexivity]. cbn [bind]. cbv zeta. rewrite !truncate_params.
  assert (Y : map (fun q => forward_arr (m_bijector (p_meta (fst q))) (snd q)) (zip (trainables t) xs) =
              map (fun q => forward_arr (m_bijector (p_meta (fst q))) (snd q)) (zip (trainables t') xs)).
  { clear -F. revert xs. induction F as [|p p' l l' [M _] F IH]; intros [|y xs]; simpl; auto. rewrite IH, M. reflexivity. }
  rewrite Y.
  assert (D : tree_def (truncate t) = tree_def (truncate t')).
  { unfold tree_def, truncate. rewrite !canon_map, !sorted_canon by auto. rewrite U1, U2, !map_map_tree. apply map_tree_ext.
    eapply every_impl; [|exact E]. intros [[p|] [p'|]] Rq; unfold R in Rq; simpl in *; try discriminate; auto. destruct Rq as [Rq _]. rewrite <- Rq.
    destruct (m_trainable (p_meta p)); simpl; congruence. }
  rewrite D. destruct (tree_unflatten (tree_def (truncate t')) _) as [tn|e]; [|reflexivity]. cbn [bind].
  rewrite !sorted_canon by auto. rewrite U1, U2. apply tzip_ext.
  eapply every_impl; [|exact E]. intros [[p|] [p'|]] Rq y; unfold R in Rq; simpl in *; try discriminate; auto. destruct Rq as [Rq Rv]. rewrite <- Rq.
  destruct (m_trainable (p_meta p)); auto. rewrite <- (param_eta p), <- (param_eta p'). now rewrite Rv, Rq.
Qed.
Lemma nlopt_scipy : forall {A} w (loss : array -> state -> result A) minimize s, state_ok w -> state_ok s -> same_frozen (s_params w) (s_params s) ->
  nlopt_optimize w loss minimize s = scipy_minimize loss minimize s.
Proof.
  intros A w loss minimize s W S F. unfold nlopt_optimize, scipy_minimize. cbv zeta.
  assert (U : forall x, unravel_forward (s_params w) x = unravel_forward (s_params s) x) by (intro x; apply unravel_indep; auto; apply W || apply S).
  rewrite (play_ext (objective (s_params w) s loss) (objective (s_params s) s loss)) by (intro x; unfold objective; now rewrite U).
  f_equal. destruct (fst (play _ _)); cbn [bind]; [|reflexivity]. now rewrite U.
Qed.
