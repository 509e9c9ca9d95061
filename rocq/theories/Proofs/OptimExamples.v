(** Concrete runs, and the counterexamples of Props/OptimProps.v. *)
From Coq Require Import String List Bool Arith Reals Lia Lra.
From Verif Require Import Model.PyDict Model.Bijectors Model.Priors Model.Params Model.State Model.Optim Spec.DictSpec Spec.StateSpec Spec.BijectorSpec
  Spec.RandomSpec Spec.OptimSpec Spec.SearchSpec Proofs.TreeFacts Proofs.StateFacts Proofs.UpdateFacts Proofs.SaveLoad Proofs.RandomFacts Proofs.StatePropLemmas Proofs.StateExamples
  Proofs.OptimFacts Proofs.OptimRun Proofs.OptimSearch Proofs.OptimPso Proofs.OptaxFacts.
Import ListNotations.
Open Scope string_scope.
Open Scope nat_scope.

Lemma ex_trainables : forall l v s, trainables (ex_params l v s) = [scalar_param true l; scalar_param true s].
Proof. reflexivity. Qed.
Lemma ex_coords : forall l v s, coords (ex_params l v s) = [Softplus; Softplus].
Proof. reflexivity. Qed.
Lemma ex_entries : forall l v s, entries (ex_params l v s) = [Some l; Some s].
Proof. reflexivity. Qed.
Lemma ex_float_tree : forall l v s, float_tree (ex_params l v s).
Proof. intros. unfold float_tree. rewrite on_trainable_list, ex_trainables. repeat constructor. Qed.
Lemma ex_full_tree : forall l v s, full_tree (ex_params l v s).
Proof. intros. unfold full_tree. rewrite on_trainable_list, ex_trainables. repeat constructor. Qed.
Lemma ex_bijs_ok : forall l v s, bijs_ok (ex_params l v s).
Proof. intros. unfold bijs_ok. rewrite on_trainable_list, ex_trainables. repeat constructor. Qed.
Definition vec (xs : list R) : array := Arr [length xs] F64 (map Some xs).
Lemma ex_unravel : forall l v s a b, exists t, unravel_forward (ex_params l v s) (vec [a; b]) = Ok t.
Proof. intros. destruct (ex_params_ok l v s). apply unravel_succeeds; auto using ex_float_tree. Qed.
(** C10: a strategy that asks twice and returns its last point *)
Definition ex_strategy (x0 : array) : strategy R array := Ask (vec [1%R; 2%R]) (fun a => Ask (vec [a; (-3)%R]) (fun b => Done (vec [b; a]))).
Lemma ex_strategy_reals : forall x0, proposes_reals (ex_strategy x0).
Proof.
  intro x0. assert (AR : forall a b, all_real (vec [a; b])) by (intros; repeat constructor; discriminate).
  repeat (constructor; [apply AR|]; intro). constructor. apply AR.
Qed.
Lemma ex_scipy : forall l v s loss, (forall x u, exists a, loss x u = Ok a) -> exists s', fst (scipy_minimize (A := R) loss ex_strategy (ex_state l v s)) = Ok s'.
Proof.
  intros l v s loss HL. destruct (ex_params_ok l v s) as [T St]. pose proof (ex_state_ok l v s) as SO.
  assert (OB : forall a b, exists u r, objective (s_params (ex_state l v s)) (ex_state l v s) loss (vec [a; b]) = Ok (u, r)).
  { intros a b. destruct (ex_unravel l v s a b) as [t Ht]. unfold objective. cbn [ex_state s_params] in *. rewrite Ht. cbn [bind].
    destruct (unravel_inv _ _ _ T St Ht) as [xs [_ [T' [S' _]]]]. rewrite with_params_ok by auto. cbn [bind].
    destruct (HL (vec [a; b]) (State (s_kernel (ex_state l v s)) (s_mean (ex_state l v s)) t (s_register (ex_state l v s)))) as [r Hr]. rewrite Hr. cbn [bind]. eauto. }
  unfold scipy_minimize. cbv zeta. cbn [fst]. unfold ex_strategy. cbn [play].
  destruct (OB 1%R 2%R) as [u1 [a1 E1]]. rewrite E1. cbn [fst]. destruct (OB a1 (-3)%R) as [u2 [a2 E2]]. rewrite E2. cbn [fst bind].
  destruct (ex_unravel l v s a2 a1) as [t Ht]. cbn [ex_state s_params]. rewrite Ht. cbn [bind].
  destruct (unravel_inv _ _ _ T St Ht) as [xs [_ [T' [S' _]]]]. eexists. apply with_params_ok; auto.
Qed.
(** C11 *)
Lemma ex_first_min : first_min [Some 3%R; Some 1%R; None; Some 1%R] 1.
Proof.
  exists 1%R. split; [reflexivity|]. intros [|[|[|[|k]]]] y H; try discriminate; cbn in H; try (injection H as <-; split; [lra|lia || (intros; lra)]).
  destruct k; discriminate.
Qed.
(** C12 *)
Lemma nlopt_reverts : exists (w s s' : state) (minimize : array -> strategy R array) (loss : array -> state -> result R),
  state_ok w /\ state_ok s /\ fst (nlopt_optimize w loss minimize s) = Ok s' /\
  lookup ["kernel_params"; "variance"] (s_params s) = Some (Some (scalar_param false 5)) /\
  lookup ["kernel_params"; "variance"] (s_params s') = Some (Some (scalar_param false 2)).
Proof.
  destruct (ex_unravel 1 2 3 0 0) as [t Ht]. pose proof (ex_state_ok 1 2 3) as W. pose proof (ex_state_ok 1 5 3) as S.
  destruct (ex_params_ok 1 2 3) as [T St]. destruct (unravel_inv _ _ _ T St Ht) as [xs [_ [T' [S' [_ [[_ O] _]]]]]].
  exists (ex_state 1 2 3), (ex_state 1 5 3). eexists. exists (fun _ => Done (vec [0%R; 0%R])), (fun _ _ => Ok 0%R). split; auto. split; auto. split; [|split; [reflexivity|]].
  - cbn [nlopt_optimize play fst snd bind]. cbn [ex_state s_params]. rewrite Ht. cbn [bind]. now apply with_params_ok.
  - cbn [s_params]. specialize (O ["kernel_params"; "variance"]). 
    replace (lookup ["kernel_params"; "variance"] (ex_params 1 2 3)) with (Some (Some (scalar_param false 2))) in O by reflexivity.
    destruct O as [v [O1 O2]]. rewrite O1. rewrite O2 by reflexivity. reflexivity.
Qed.
(** C13 *)
Lemma pso_out_of_range : exists (s s' : state) (pso : nat -> strategy R (array * num)) (loss : array -> state -> result R),
  state_ok s /\ bijs_ok (s_params s) /\ fst (pso_minimize loss pso None 1 s) = Ok s' /\ ~ in_ranges (s_params s').
Proof.
  pose proof (ex_state_ok 1 2 3) as S. destruct (fake_state _ S) as [E SF]. pose proof SF as [T0 [St0 _]].
  assert (F0 : float_tree (s_params (with_identity (ex_state 1 2 3)))) by (unfold float_tree; rewrite on_trainable_list; repeat constructor).
  destruct (unravel_succeeds (s_params (with_identity (ex_state 1 2 3))) (vec [(-1)%R; (-1)%R])) as [t Ht]; auto.
  destruct (pso_back _ _ _ S Ht) as [s' [P1 [P2 [P3 P4]]]].
  exists (ex_state 1 2 3), s', (fun _ => Done (vec [(-1)%R; (-1)%R], Some 0%R)), (fun _ _ => Ok 0%R). split; auto. split; [apply ex_bijs_ok|]. split.
  - unfold pso_minimize. rewrite E. cbv zeta. cbn [trials seq play fst snd bind app keep_best less]. rewrite Ht. cbn [bind]. rewrite P1. reflexivity.
  - intro IR. assert (EN : entries (s_params s') = map Some [(-1)%R; (-1)%R]) by (apply P4; [apply ex_float_tree|discriminate]).
    assert (M : map p_meta (trainables (s_params s')) = [gamma_meta true; gamma_meta true]).
    { destruct P3 as [_ [_ [_ [SN O]]]]. destruct P2 as [T2 [S2 _]].
      assert (D : tree_def (s_params s') = tree_def (s_params (ex_state 1 2 3))).
      { unfold tree_def. rewrite !sorted_canon by (auto; apply S). destruct (SaveLoad.tree_pair _ _ SN) as [w [W1 W2]]. rewrite W1, W2, !map_map_tree. apply map_tree_ext.
        assert (KW : keys_distinct w) by (apply (kd_map fst); rewrite <- W1; apply T2).
        apply every_lookup; auto. intros path [o o'] L. specialize (O path). rewrite W1, W2, !lookup_map, L in O. cbn in O. destruct o' as [p|]; [|injection O as ->; reflexivity].
        destruct O as [v [O _]]. injection O as ->. reflexivity. }
      unfold trainables. rewrite (filter_map_meta m_trainable). fold (metas (s_params s')). rewrite (defs_eq_metas _ _ D). reflexivity. }
    unfold in_ranges in IR. rewrite on_trainable_list in IR. unfold entries in EN.
    assert (G : forall ps, Forall (fun p => Forall (fun x => forall y, x = Some y -> in_range (m_bijector (p_meta p)) y) (a_data (p_value p))) ps ->
      Forall (fun m => m = gamma_meta true) (map p_meta ps) -> Forall (fun x => forall y, x = Some y -> (0 < y)%R) (flat_map (fun p => a_data (p_value p)) ps)).
    { clear. intros ps H M. induction H as [|p ps H1 H IH]; simpl in *; [constructor|]. inversion M as [|? ? M1 M2]; subst. apply Forall_app. split; auto. rewrite M1 in H1. exact H1. }
    specialize (G _ IR). rewrite M, EN in G. assert (Q : Forall (fun m => m = gamma_meta true) [gamma_meta true; gamma_meta true]) by repeat constructor.
    specialize (G Q). inversion G as [|? ? G1 _]; subst. specialize (G1 _ eq_refl). lra.
Qed.
(** C14: gradient descent *)
Definition scale (c : R) (a : array) : array := Arr (a_shape a) (a_dtype a) (map (option_map (Rmult c)) (a_data a)).
Definition descent (rate : R) (hist : list (list array)) : list array := match hist with [] => [] | g :: _ => map (scale (- rate)) g end.
Lemma descent_lazy : forall rate, lazy_updates (descent rate).
Proof.
  intros rate g hist i a Hg Z _. exists (scale (- rate) a). cbn [descent]. split; [now apply map_nth_error|]. split.
  - unfold zero_arr, scale in *. cbn [a_data]. clear Hg. induction Z as [|x l Hx Z IH]; simpl; constructor; auto. rewrite Hx. simpl. f_equal. ring.
  - unfold scale. cbn [a_data]. apply map_length.
Qed.
Definition ex_grad (s : state) : list array := map (fun p => scale 0 (p_value p)) (params_of (s_params s)).
Lemma ex_optax : forall n l v s, exists u, fst (optax_minimize ex_grad (descent 1) n (ex_state l v s)) = Ok u.
Proof.
  intros. apply optax_succeeds.
  - apply ex_state_ok.
  - cbn. unfold floating. cbn. tauto.
  - intro s0. apply map_length.
  - intros. apply map_length.
Qed.
