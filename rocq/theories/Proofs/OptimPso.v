(** Particle swarms. *)
From Coq Require Import Ascii String List Bool Arith Reals Permutation Lia Lra.
From Verif Require Import Model.PyDict Model.Bijectors Model.Priors Model.Params Model.State Model.Optim Spec.DictSpec Spec.StateSpec Spec.BijectorSpec
  Spec.RandomSpec Spec.OptimSpec Spec.SearchSpec Proofs.BijectorLemmas Proofs.DictFacts Proofs.TreeFacts Proofs.StateFacts Proofs.UpdateFacts Proofs.SaveLoad
  Proofs.RandomFacts Proofs.StatePropLemmas Proofs.OptimFacts Proofs.OptimRun Proofs.OptimSearch.
Import ListNotations.
Open Scope string_scope.
Open Scope nat_scope.

Lemma tmapM_ok : forall {A B} (f : A -> result B) (g : A -> B) t, every (fun a => f a = Ok (g a)) t -> tmapM f t = Ok (map_tree g t).
Proof.
  intros A B f g t. induction t as [a|l IH] using tree_ind'; intro E.
  - simpl in *. now rewrite E.
  - apply every_node in E. simpl. match goal with |- bind ?x _ = _ => assert (G : x = Ok (vmap (map_tree g) l)) end.
    { induction l as [|[k s] r IHr]; [reflexivity|]. inversion IH as [|? ? J1 J2]; inversion E as [|? ? E1 E2]; subst. cbn [snd] in *. rewrite (J1 E1). cbn [bind].
      rewrite (IHr J2 E2). reflexivity. }
    rewrite G. cbn [bind]. now rewrite <- map_node.
Qed.
Lemma fake_state : forall s, state_ok s -> bind (tmapM identity_bijector (canon (s_params s))) (with_params s) = Ok (with_identity s) /\ state_ok (with_identity s).
Proof.
  intros s S. destruct S as [T [St R]]. assert (S : state_ok s) by (split; auto).
  assert (T' : ptree_ok (map_tree no_bijector (s_params s))).
  { destruct T as [K E]. split; [now apply kd_map|].
    apply (proj2 (every_map no_bijector opt_ok (s_params s))). eapply every_impl; [|exact E]. intros [p|] O; [exact O|exact I]. }
  assert (St' : sorted (map_tree no_bijector (s_params s))) by (now apply sorted_map).
  split; [|now apply with_params_state_ok].
  rewrite sorted_canon by auto. rewrite (tmapM_ok _ no_bijector).
  - cbn [bind]. now rewrite with_params_ok.
  - eapply every_impl; [|apply T]. intros [p|] O; [|reflexivity]. unfold identity_bijector, param_update. cbn.
    destruct (mk_param_spec (p_value p) (Meta (m_trainable (p_meta p)) Identity (m_prior (p_meta p)))) as [[_ ->]|[F _]]; [reflexivity|]. exfalso. apply F. exact O.
Qed.
Lemma keep_best_spec : forall {X} ts pre (best : option (X * num)),
  match best with
  | Some b => exists j m, b = (fst b, Some m) /\ nth_error pre j = Some b /\ min_at (map snd pre) j m
  | None => Forall (fun tr => snd tr = None) pre
  end ->
  match keep_best best ts with
  | Some b => exists j m, b = (fst b, Some m) /\ nth_error (pre ++ ts) j = Some b /\ min_at (map snd (pre ++ ts)) j m
  | None => Forall (fun tr => snd tr = None) (pre ++ ts)
  end.
Proof.
  intros X ts. induction ts as [|tr ts IH]; intros pre best H.
  - simpl. rewrite app_nil_r. exact H.
  - cbn [keep_best]. cbv zeta. change (tr :: ts) with ([tr] ++ ts)%list. rewrite app_assoc. apply IH. clear IH.
    destruct best as [b|].
    + destruct H as [j [m [H1 [H2 H3]]]]. destruct tr as [x c]. rewrite H1. cbn [snd]. destruct c as [c|]; simpl less.
      * destruct (Rlt_dec c m) as [L|L].
        -- exists (length pre), c. split; auto. split; [now rewrite nth_error_app2, Nat.sub_diag by auto|]. rewrite map_app. cbn [map snd].
           rewrite <- (map_length snd pre). eapply min_at_new; eauto.
        -- exists j, m. cbn [fst]. split; auto. split; [rewrite nth_error_app1; [now rewrite H2, H1|apply nth_error_Some; congruence]|]. rewrite map_app. apply min_at_snoc; auto. simpl.
           destruct (Rlt_dec c m); [contradiction|reflexivity].
      * exists j, m. cbn [fst]. split; auto. split; [rewrite nth_error_app1; [now rewrite H2, H1|apply nth_error_Some; congruence]|]. rewrite map_app. apply min_at_snoc; auto.
    + destruct tr as [x c]. cbn [snd]. destruct c as [c|]; simpl less.
      * exists (length pre), c. split; auto. split; [now rewrite nth_error_app2, Nat.sub_diag by auto|]. rewrite map_app. cbn [map snd]. split.
        -- rewrite nth_error_app2; rewrite map_length; auto. now rewrite Nat.sub_diag.
        -- intros k y Hk. destruct (Nat.lt_ge_cases k (length (map snd pre))) as [K|K].
           ++ rewrite nth_error_app1 in Hk by auto. rewrite nth_error_map in Hk. destruct (nth_error pre k) as [q|] eqn:Q; [|discriminate]. simpl in Hk.
              apply nth_error_In in Q. rewrite Forall_forall in H. specialize (H q Q). destruct q as [q0 q1]. simpl in *. subst. discriminate.
           ++ rewrite nth_error_app2 in Hk by auto. destruct (k - length (map snd pre)) as [|[|]]; try discriminate. injection Hk as ->. rewrite map_length in K. split; [lra|lia].
      * apply Forall_app. split; auto.
Qed.
Lemma keep_best_some : forall {X} (ts : list (X * num)) x c, keep_best None ts = Some (x, c) ->
  exists j m, nth_error ts j = Some (x, Some m) /\ c = Some m /\ first_min (map snd ts) j.
Proof.
  intros X ts x c H. pose proof (keep_best_spec ts [] None (Forall_nil _)) as K. rewrite H in K. destruct K as [j [m [K1 [K2 K3]]]].
  exists j, m. cbn [fst app] in *. injection K1 as ->. split; auto. split; auto. exists m. exact K3.
Qed.
Lemma keep_best_none : forall {X} (ts : list (X * num)), Forall (fun tr => snd tr = None) ts -> keep_best None ts = None.
Proof. intros X ts H. induction H as [|[x c] r Hx H IH]; [reflexivity|]. simpl in Hx. subst. simpl. exact IH. Qed.
Lemma trials_spec : forall {A} (eval : array -> result (state * A)) pso seeds ts, fst (trials eval pso seeds) = Ok ts ->
  Forall2 (fun i tr => fst (play eval (pso i)) = Ok tr) seeds ts.
Proof.
  intros A eval pso seeds. induction seeds as [|i r IH]; intros ts H; cbn [trials] in H; cbv zeta in H.
  - injection H as <-. constructor.
  - destruct (fst (play eval (pso i))) as [tr|] eqn:E; [|discriminate]. cbn [fst] in H. apply bind_ok in H. destruct H as [l [Hl H]]. injection H as <-. constructor; auto.
Qed.
Lemma trials_ok : forall {A} (eval : array -> result (state * A)) pso seeds ts, Forall2 (fun i tr => fst (play eval (pso i)) = Ok tr) seeds ts ->
  fst (trials eval pso seeds) = Ok ts.
Proof. intros A eval pso seeds ts F. induction F as [|i tr r l H F IH]; [reflexivity|]. cbn [trials]. cbv zeta. rewrite H. cbn [fst]. now rewrite IH. Qed.
(** putting the values found back under the bijectors of s *)
Definition wpso (q : option param * option param) : Prop :=
  match q with
  | (Some p, Some p') => p_meta p' = Meta (m_trainable (p_meta p)) Identity (m_prior (p_meta p)) /\ param_ok p' /\
      (m_trainable (p_meta p) = false -> p_value p' = p_value p)
  | (None, None) => True
  | _ => False
  end.
Definition hpso (q : option param * option param) : option param :=
  match q with (Some p, Some p') => Some (Param (p_value p') (p_meta p)) | _ => None end.
Lemma pso_back : forall s x tf, state_ok s -> unravel_forward (s_params (with_identity s)) x = Ok tf ->
  exists s', bind (with_params (with_identity s) tf) (fun fake' =>
    bind (tzip (fun op fp => match op, fp with
                  | Some p, Some p' => bind (fst (param_update p [("value", PArr (p_value p'))])) (fun r => Ok (Some r))
                  | Some _, None => Err AttributeError
                  | None, _ => Ok None end)
            (canon (s_params s)) (canon (s_params fake'))) (fun rt =>
    bind (tmapM (fun r => r) rt) (with_params s))) = Ok s' /\
  state_ok s' /\ only_trainables_state s s' /\ (float_tree (s_params s) -> trainables (s_params s) <> [] -> entries (s_params s') = a_data x).
Proof.
  intros s x tf S H. destruct (fake_state s S) as [_ SF]. pose proof S as [T [St _]]. pose proof SF as [T0 [St0 _]].
  destruct (unravel_inv _ x tf T0 St0 H) as [xs [U [Tf [Sf [Df [[SN OT] [Mf Vf]]]]]]].
  rewrite with_params_ok by auto. cbn [bind s_params]. rewrite (sorted_canon tf), (sorted_canon (s_params s)) by auto.
  assert (SN' : same_names (s_params s) tf).
  { unfold same_names in *. rewrite SN. unfold with_identity. cbn [s_params]. now rewrite map_map_tree. }
  destruct (tree_pair _ _ SN') as [w [W1 W2]].
  assert (KW : keys_distinct w) by (apply (kd_map fst); rewrite <- W1; apply T).
  assert (EW : every wpso w).
  { apply every_lookup; auto. intros path [o o'] L. specialize (OT path). unfold with_identity in OT. cbn [s_params] in OT.
    rewrite lookup_map, W2, lookup_map in OT. rewrite W1, lookup_map, L in OT. cbn [option_map fst snd] in OT.
    assert (PO : opt_ok o').
    { apply (every_lookup' opt_ok tf path); [apply Tf|]. rewrite W2, lookup_map, L. reflexivity. }
    destruct o as [p|]; cbn in OT.
    - destruct OT as [v [OT1 OT2]]. injection OT1 as ->. split; [reflexivity|]. split; [exact PO|]. exact OT2.
    - injection OT as ->. exact I. }
  pose proof (tzip_pair (fun op fp => match op, fp with
                  | Some p, Some p' => bind (fst (param_update p [("value", PArr (p_value p'))])) (fun r => Ok (Some r))
                  | Some _, None => Err AttributeError
                  | None, _ => Ok None end) w) as TZ. rewrite <- W1, <- W2 in TZ. rewrite TZ. cbn [bind].
  assert (HT : map_tree (fun x0 => match fst x0, snd x0 with
                  | Some p, Some p' => bind (fst (param_update p [("value", PArr (p_value p'))])) (fun r => Ok (Some r))
                  | Some _, None => Err AttributeError
                  | None, _ => Ok None end) w = map_tree (fun q => Ok (hpso q)) w).
  { apply map_tree_ext. eapply every_impl; [|exact EW]. intros [[p|] [p'|]] Q; cbn [fst snd hpso]; try destruct Q; try reflexivity.
    rewrite param_set_value. destruct H1 as [[F1 F2] _]. destruct (mk_param_spec (p_value p') (p_meta p)) as [[_ ->]|[F _]]; [reflexivity|]. exfalso. apply F.
    rewrite H0 in F1, F2. split; assumption. }
  rewrite HT.
  assert (TM : tmapM (fun r => r) (map_tree (fun q => Ok (hpso q)) w) = Ok (map_tree hpso w)).
  { rewrite (tmapM_ok _ (fun r : result (option param) => match r with Ok o => o | Err _ => None end)).
    - now rewrite map_map_tree.
    - match goal with |- every ?P _ => apply (proj2 (every_map (fun q => Ok (hpso q)) P w)) end. apply every_all. reflexivity. }
  rewrite TM. cbn [bind].
  assert (SW : sorted w).
  { clear -W1 St. rewrite W1 in St. clear W1. revert St. induction w as [a|l IH] using tree_ind'; intro St; [exact I|]. rewrite map_node in St.
    apply sorted_node in St. apply sorted_node. rewrite vmap_keys in St. split; [apply St|]. destruct St as [_ St]. apply Forall_vmap in St. clear -IH St.
    induction l; inversion IH; inversion St; subst; constructor; auto. }
  assert (TP : ptree_ok (map_tree hpso w)).
  { split; [now apply kd_map|]. apply (proj2 (every_map hpso opt_ok w)). eapply every_impl; [|exact EW]. intros [[p|] [p'|]] Q; simpl; auto.
    destruct Q as [Q1 [[Q2 Q3] _]]. rewrite Q1 in Q2, Q3. split; assumption. }
  assert (SP : sorted (map_tree hpso w)) by (now apply sorted_map).
  rewrite with_params_ok by auto. eexists. split; [reflexivity|]. split; [now apply with_params_state_ok|]. split.
  - repeat split; auto. cbn [s_params].
    + unfold same_names. rewrite W1, !map_map_tree. reflexivity.
    + intro path. cbn [s_params]. rewrite W1, !lookup_map. destruct (lookup path w) as [[o o']|] eqn:L; cbn [option_map]; [|reflexivity].
      pose proof (every_lookup' _ _ _ _ EW L) as Q. destruct o as [p|], o' as [p'|]; cbn in *; try contradiction; auto.
      exists (p_value p'). split; auto. apply Q.
  - intros F NT. cbn [s_params] in *.
    assert (L : length (a_data x) = length (coords (s_params (with_identity s)))).
    { destruct (Nat.eq_dec (length (a_data x)) (length (coords (s_params (with_identity s))))) as [L|L]; auto.
      rewrite unravel_wrong_length in H; [discriminate| |exact L]. intro Z. apply NT. unfold trainables, params_of in *. rewrite sorted_canon in Z by auto. rewrite sorted_canon by auto.
      cbn [with_identity s_params] in Z. rewrite tleaves_map in Z. unfold no_bijector in Z. rewrite somes_map in Z. clear -Z.
      induction (somes (tleaves (s_params s))) as [|p r IH]; [reflexivity|]. simpl in *. destruct (m_trainable (p_meta p)); [discriminate|auto]. }
    assert (EE : entries (map_tree hpso w) = entries tf).
    { unfold entries, trainables, params_of. rewrite !sorted_canon by auto. rewrite W2, !tleaves_map. apply every_leaves in EW. clear -EW.
      induction (tleaves w) as [|[[p|] [p'|]] r IH]; [reflexivity| | | |]; inversion EW as [|? ? Q E]; subst; cbn in Q; try contradiction.
      - unfold somes in *. simpl. destruct Q as [Q _]. rewrite Q. cbn [m_trainable]. destruct (m_trainable (p_meta p)); simpl; [f_equal|]; apply IH; auto.
      - unfold somes in *. simpl. apply IH; auto. }
    rewrite EE in *.
    assert (F0 : float_tree (s_params (with_identity s))).
    { unfold float_tree, on_trainable in *. cbn [with_identity s_params]. apply (proj2 (every_map no_bijector _ (s_params s))). eapply every_impl; [|exact F]. intros [p|]; simpl; auto. }
    pose proof (entries_unravel _ x tf T0 St0 F0 H) as E. rewrite E.
    assert (CI : Forall (fun b => b = Identity) (coords (s_params (with_identity s)))).
    { unfold coords, trainables, params_of. rewrite sorted_canon by auto. cbn [with_identity s_params]. rewrite tleaves_map. clear. unfold no_bijector. rewrite somes_map.
      induction (somes (tleaves (s_params s))) as [|p r IH]; simpl; [constructor|]. destruct (m_trainable (p_meta p)); simpl; auto. apply Forall_app. split; auto.
      clear. induction (size_of (a_shape (p_value p))); simpl; constructor; auto. }
    revert L CI. generalize (coords (s_params (with_identity s))) as cs, (a_data x) as d. clear. intro cs.
    induction cs as [|c cs IH]; intros [|a d] L CI; simpl in *; try discriminate; auto. inversion CI; subst. rewrite (IH d) by auto. now destruct a.
Qed.
Lemma pso_best : forall {A} (loss : array -> state -> result A) pso n s s', state_ok s -> fst (pso_minimize loss pso None n s) = Ok s' ->
  exists ts j x m, length ts = n /\ (forall i tr, nth_error ts i = Some tr -> pso_trial loss s (pso i) = Ok tr) /\
    nth_error ts j = Some (x, Some m) /\ first_min (map snd ts) j /\
    state_ok s' /\ only_trainables_state s s' /\ (float_tree (s_params s) -> trainables (s_params s) <> [] -> entries (s_params s') = a_data x).
Proof.
  intros A loss pso n s s' S H. unfold pso_minimize in H. destruct (fake_state s S) as [E SF]. rewrite E in H. cbv zeta in H.
  match type of H with fst (match ?b with _ => _ end) = _ => destruct b as [u|] eqn:B end; [|discriminate]. cbn [fst] in H. injection H as ->.
  apply bind_ok in B. destruct B as [ts [Ht B]]. destruct (keep_best None ts) as [[x c]|] eqn:K; [|discriminate].
  destruct (keep_best_some ts x c K) as [j [m [K1 [-> K3]]]]. apply bind_ok in B. destruct B as [tf [Hf B]].
  destruct (pso_back s x tf S Hf) as [s2 [P1 [P2 [P3 P4]]]]. rewrite P1 in B. injection B as ->.
  exists ts, j, x, m. pose proof (trials_spec _ _ _ _ Ht) as F. repeat split; auto; try apply P2; try apply P3.
  - apply F2_length in F. now rewrite seq_length in F.
  - intros i tr Hi. clear -F Hi. unfold pso_trial.
    assert (G : forall a, Forall2 (fun i tr => fst (play (objective (s_params (with_identity s)) (with_identity s) loss) (pso i)) = Ok tr) (seq a n) ts ->
      fst (play (objective (s_params (with_identity s)) (with_identity s) loss) (pso (a + i))) = Ok tr).
    { clear F. revert ts i Hi. induction n as [|n IH]; intros ts i Hi a F; inversion F; subst; [destruct i; discriminate|]. destruct i as [|i].
      - injection Hi as ->. now rewrite Nat.add_0_r.
      - simpl in Hi. rewrite Nat.add_succ_r. apply (IH l' i Hi (S a)). assumption. }
    exact (G 0 F).
Qed.
Lemma pso_unbound : forall {A} (loss : array -> state -> result A) pso localopt n s ts, state_ok s -> length ts = n ->
  (forall i tr, nth_error ts i = Some tr -> pso_trial loss s (pso i) = Ok tr) -> Forall (fun tr => snd tr = None) ts ->
  fst (pso_minimize loss pso localopt n s) = Err UnboundLocalError.
Proof.
  intros A loss pso localopt n s ts S L H F. unfold pso_minimize. destruct (fake_state s S) as [E SF]. rewrite E. cbv zeta.
  assert (G : fst (trials (objective (s_params (with_identity s)) (with_identity s) loss) pso (seq 0 n)) = Ok ts).
  { apply trials_ok. clear -L H. assert (G : forall a, (forall i tr, nth_error ts i = Some tr -> pso_trial loss s (pso (a + i)) = Ok tr) ->
      Forall2 (fun i tr => fst (play (objective (s_params (with_identity s)) (with_identity s) loss) (pso i)) = Ok tr) (seq a n) ts).
    { clear H. revert ts L. induction n as [|n IH]; intros [|tr ts] L a H; try discriminate; constructor.
      - specialize (H 0 tr eq_refl). now rewrite Nat.add_0_r in H.
      - apply IH; auto. intros i q Hi. specialize (H (S i) q Hi). now rewrite Nat.add_succ_r in H. }
    apply G. exact H. }
  rewrite G. cbn [bind]. rewrite keep_best_none by auto. reflexivity.
Qed.
Lemma pso_local : forall {A} (loss : array -> state -> result A) pso m n s,
  fst (pso_minimize loss pso (Some m) n s) = bind (fst (pso_minimize loss pso None n s)) (fun u => fst (scipy_minimize loss m u)).
Proof.
  intros A loss pso m n s. unfold pso_minimize. destruct (bind (tmapM identity_bijector (canon (s_params s))) (with_params s)) as [fake|]; [|reflexivity].
  cbv zeta. match goal with |- fst (match ?b with _ => _ end) = _ => destruct b end; reflexivity.
Qed.
Lemma only_trainables_trans : forall t t' t'', only_trainables t t' -> only_trainables t' t'' -> only_trainables t t''.
Proof.
  intros t t' t'' [S1 H1] [S2 H2]. split; [unfold same_names in *; congruence|]. intro path. specialize (H1 path). specialize (H2 path).
  destruct (lookup path t) as [[p|]|].
  - destruct H1 as [v [E1 F1]]. rewrite E1 in H2. destruct H2 as [v' [E2 F2]]. exists v'. split; auto. intro Z. cbn in F2. rewrite (F2 Z). auto.
  - now rewrite H1 in H2.
  - now rewrite H1 in H2.
Qed.
Lemma pso_local_result : forall {A} (loss : array -> state -> result A) pso m n s s', state_ok s -> fst (pso_minimize loss pso (Some m) n s) = Ok s' ->
  state_ok s' /\ only_trainables_state s s' /\ (bijs_ok (s_params s) -> in_ranges (s_params s')).
Proof.
  intros A loss pso m n s s' S H. rewrite pso_local in H. apply bind_ok in H. destruct H as [u [Hu H]].
  destruct (pso_best loss pso n s u S Hu) as [ts [j [x [c [_ [_ [_ [_ [SU [OU _]]]]]]]]]].
  destruct (scipy_visits loss m u SU) as [_ V]. destruct (V s' H) as [S' [O' R']]. split; auto.
  destruct OU as [A1 [A2 [A3 A4]]], O' as [B1 [B2 [B3 B4]]]. split; [repeat split; try congruence; eapply only_trainables_trans; eauto|].
  intro B. apply R'. unfold bijs_ok, on_trainable in *. destruct A4 as [SN OT]. apply every_lookup; [apply SU|]. intros path [p|] L; auto.
  specialize (OT path). destruct (lookup path (s_params s)) as [[q|]|] eqn:Q; [|congruence|congruence]. destruct OT as [v [OT _]]. rewrite OT in L. injection L as <-.
  cbn. intro TR. exact (on_trainable_lookup _ _ _ _ B Q TR).
Qed.
