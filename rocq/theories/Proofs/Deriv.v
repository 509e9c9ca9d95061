(** Derivatives of functions of the form phi (sum_a h (x_(ds a)) (y_(ds a))). *)
From Coq Require Import Reals Lra Lia Arith List FunctionalExtensionality.
From Coquelicot Require Import Coquelicot.
From Verif Require Import Base.Sums Base.Mat Model.Arrays Spec.Partial.
Open Scope R_scope.

Lemma upd_eta : forall v i, upd v i (v i) = v.
Proof. intros. extensionality j. apply upd_id. Qed.
Lemma upd_upd : forall v i s t, upd (upd v i s) i t = upd v i t.
Proof. intros. extensionality j. unfold upd. destruct (Nat.eqb j i); auto. Qed.
Lemma upd_at : forall v i t, upd v i t i = t.
Proof. intros. apply upd_same. Qed.

Lemma is_derive_sum : forall n (F : nat -> R -> R) x (D : nat -> R),
  (forall a, (a < n)%nat -> is_derive (F a) x (D a)) ->
  is_derive (fun t => sum n (fun a => F a t)) x (sum n D).
Proof.
  induction n; intros F x D H; simpl.
  - apply (is_derive_const 0 x).
  - apply (is_derive_plus (fun t => sum n (fun a => F a t)) (F n) x (sum n D) (D n)).
    + apply IHn. intros; apply H; lia.
    + apply H; lia.
Qed.

Lemma is_derive_ext_eq : forall (f g : R -> R) x d d',
  is_derive f x d -> (forall t, f t = g t) -> d = d' -> is_derive g x d'.
Proof. intros f g x d d' H E <-. eapply is_derive_ext; eauto. Qed.

Lemma is_derive_eq : forall (f : R -> R) x d d', is_derive f x d -> d = d' -> is_derive f x d'.
Proof. intros; subst; auto. Qed.

Lemma partial0_unique : forall k x y f a b, partial0 k x y f a -> partial0 k x y f b -> a = b.
Proof.
  intros k x y f a b H1 H2. apply is_derive_unique in H1. apply is_derive_unique in H2. congruence.
Qed.
Lemma partial1_unique : forall k x y f a b, partial1 k x y f a -> partial1 k x y f b -> a = b.
Proof.
  intros k x y f a b H1 H2. apply is_derive_unique in H1. apply is_derive_unique in H2. congruence.
Qed.
Lemma partial01_unique : forall k x y f e a b,
  partial01 k x y f e a -> partial01 k x y f e b -> a = b.
Proof.
  intros k x y f e a b [g1 [L1 D1]] [g2 [L2 D2]].
  assert (L : locally (y e) (fun t => g1 t = g2 t)).
  { generalize (filter_and _ _ L1 L2). apply filter_imp. intros t [H1 H2].
    eapply partial0_unique; eauto. }
  apply (is_derive_ext_loc g1 g2) in D1; auto.
  apply is_derive_unique in D1. apply is_derive_unique in D2. congruence.
Qed.

Section Composite.
  Variable ds : list nat.
  Variables (h hx hy hxy : R -> R -> R).
  Hypothesis Hhx : forall x y, is_derive (fun z => h z y) x (hx x y).
  Hypothesis Hhy : forall x y, is_derive (fun z => h x z) y (hy x y).
  Hypothesis Hhxy : forall x y, is_derive (fun z => hx x z) y (hxy x y).

  Definition usum (x y : Vec) : R :=
    sum (length ds) (fun a => h (gather ds x a) (gather ds y a)).
  Definition S0 (x y : Vec) (f : nat) : R :=
    sum (length ds) (fun a => delta (nth a ds O) f * hx (gather ds x a) (gather ds y a)).
  Definition S1 (x y : Vec) (e : nat) : R :=
    sum (length ds) (fun a => delta (nth a ds O) e * hy (gather ds x a) (gather ds y a)).
  Definition S01 (x y : Vec) (f e : nat) : R :=
    sum (length ds) (fun a => delta (nth a ds O) f * delta (nth a ds O) e *
                              hxy (gather ds x a) (gather ds y a)).

  Lemma usum_d0 : forall x y f, is_derive (fun t => usum (upd x f t) y) (x f) (S0 x y f).
  Proof.
    intros x y f. apply is_derive_sum. intros a Ha. unfold gather.
    destruct (Nat.eq_dec (nth a ds O) f) as [E|E].
    - rewrite E, delta_same, Rmult_1_l.
      eapply is_derive_ext; [|apply Hhx]. intros t; simpl. now rewrite upd_at.
    - rewrite delta_diff by auto. rewrite Rmult_0_l.
      eapply is_derive_ext; [|apply (is_derive_const (h (x (nth a ds O)) (y (nth a ds O))))].
      intros t; simpl. now rewrite upd_other by auto.
  Qed.

  Lemma usum_d1 : forall x y e, is_derive (fun t => usum x (upd y e t)) (y e) (S1 x y e).
  Proof.
    intros x y f. apply is_derive_sum. intros a Ha. unfold gather.
    destruct (Nat.eq_dec (nth a ds O) f) as [E|E].
    - rewrite E, delta_same, Rmult_1_l.
      eapply is_derive_ext; [|apply Hhy]. intros t; simpl. now rewrite upd_at.
    - rewrite delta_diff by auto. rewrite Rmult_0_l.
      eapply is_derive_ext; [|apply (is_derive_const (h (x (nth a ds O)) (y (nth a ds O))))].
      intros t; simpl. now rewrite upd_other by auto.
  Qed.

  Lemma S0_d1 : forall x y f e,
    is_derive (fun t => S0 x (upd y e t) f) (y e) (S01 x y f e).
  Proof.
    intros x y f e. unfold S0, S01. apply is_derive_sum. intros a Ha. unfold gather.
    rewrite Rmult_assoc.
    apply (is_derive_scal (fun t => hx (x (nth a ds O)) (upd y e t (nth a ds O)))).
    destruct (Nat.eq_dec (nth a ds O) e) as [E|E].
    - rewrite E, delta_same, Rmult_1_l.
      eapply is_derive_ext; [|apply Hhxy]. intros t; simpl. now rewrite upd_at.
    - rewrite (delta_diff _ e) by auto. rewrite Rmult_0_l.
      eapply is_derive_ext; [|apply (is_derive_const (hx (x (nth a ds O)) (y (nth a ds O))))].
      intros t; simpl. now rewrite upd_other by auto.
  Qed.

  Variables (phi phi' phi'' : R -> R) (P : R -> Prop).
  Hypothesis HP : forall u, P u -> locally u P.
  Hypothesis Hphi : forall u, P u -> is_derive phi u (phi' u).
  Hypothesis Hphi' : forall u, P u -> is_derive phi' u (phi'' u).

  Definition kap (x y : Vec) : R := phi (usum x y).

  Lemma kap_partial0 : forall x y f, P (usum x y) ->
    partial0 kap x y f (phi' (usum x y) * S0 x y f).
  Proof.
    intros x y f HPu. unfold partial0, kap.
    rewrite Rmult_comm.
    apply (is_derive_comp phi (fun t => usum (upd x f t) y) (x f)).
    - rewrite upd_eta. now apply Hphi.
    - apply usum_d0.
  Qed.

  Lemma kap_partial1 : forall x y e, P (usum x y) ->
    partial1 kap x y e (phi' (usum x y) * S1 x y e).
  Proof.
    intros x y f HPu. unfold partial1, kap.
    rewrite Rmult_comm.
    apply (is_derive_comp phi (fun t => usum x (upd y f t)) (y f)).
    - rewrite upd_eta. now apply Hphi.
    - apply usum_d1.
  Qed.

  Lemma usum_locally : forall x y e, P (usum x y) ->
    locally (y e) (fun t => P (usum x (upd y e t))).
  Proof.
    intros x y e HPu.
    assert (C : continuous (fun t => usum x (upd y e t)) (y e)).
    { apply (ex_derive_continuous (fun t => usum x (upd y e t)) (y e)).
      exists (S1 x y e). apply usum_d1. }
    apply C. rewrite upd_eta. now apply HP.
  Qed.

  Lemma kap_partial01 : forall x y f e, P (usum x y) ->
    partial01 kap x y f e
      (phi'' (usum x y) * S1 x y e * S0 x y f + phi' (usum x y) * S01 x y f e).
  Proof.
    intros x y f e HPu.
    exists (fun t => phi' (usum x (upd y e t)) * S0 x (upd y e t) f). split.
    - generalize (usum_locally x y e HPu). apply filter_imp.
      intros t Ht. now apply kap_partial0.
    - assert (A : is_derive (fun t => phi' (usum x (upd y e t))) (y e)
                    (phi'' (usum x y) * S1 x y e)).
      { rewrite Rmult_comm.
        apply (is_derive_comp phi' (fun t => usum x (upd y e t)) (y e)).
        - rewrite upd_eta. now apply Hphi'.
        - apply usum_d1. }
      generalize (is_derive_mult _ _ _ _ _ A (S0_d1 x y f e) Rmult_comm).
      intro B. eapply is_derive_eq; [exact B|].
      rewrite upd_eta. unfold plus, mult; simpl. ring.
  Qed.
End Composite.

(** scatter facts *)
Lemma find_ix_spec : forall f l a, find_ix f l = Some a -> (a < length l)%nat /\ nth a l O = f.
Proof.
  induction l as [|b l IH]; intros a H; simpl in H; [discriminate|].
  destruct (Nat.eqb_spec b f) as [E|E].
  - injection H as <-. simpl; split; [lia|auto].
  - destruct (find_ix f l) as [a'|] eqn:Ef; [|discriminate].
    injection H as <-. destruct (IH a' eq_refl). simpl; split; [lia|auto].
Qed.
Lemma find_ix_none : forall f l, find_ix f l = None -> forall a, (a < length l)%nat -> nth a l O <> f.
Proof.
  induction l as [|b l IH]; intros H a Ha; simpl in *; [lia|].
  destruct (Nat.eqb_spec b f) as [E|E]; [discriminate|].
  destruct (find_ix f l); [discriminate|]. destruct a; auto. apply IH; auto; lia.
Qed.
Lemma scat_sum : forall ds v f, NoDup ds ->
  scat ds v f = sum (length ds) (fun a => delta (nth a ds O) f * v a).
Proof.
  intros ds v f HN. unfold scat. destruct (find_ix f ds) as [a|] eqn:E.
  - destruct (find_ix_spec _ _ _ E) as [Ha Hn].
    rewrite (sum_single (length ds) a); auto.
    + rewrite Hn, delta_same. ring.
    + intros j Hj Hja. rewrite delta_diff; [ring|]. intro Hc. apply Hja.
      apply (proj1 (NoDup_nth ds O) HN); auto. congruence.
  - symmetry. apply sum_zero_ext. intros a Ha. rewrite delta_diff; [ring|].
    eapply find_ix_none; eauto.
Qed.
Lemma scat2_sum : forall ds v f e, NoDup ds ->
  scat2_xy ds v f e =
  sum (length ds) (fun b => sum (length ds) (fun a =>
    delta (nth b ds O) f * delta (nth a ds O) e * v a b)).
Proof.
  intros ds v f e HN. unfold scat2_xy.
  assert (G : sum (length ds) (fun b => sum (length ds) (fun a =>
    delta (nth b ds O) f * delta (nth a ds O) e * v a b))
    = scat ds (fun b => scat ds (fun a => v a b) e) f).
  { rewrite scat_sum by auto. apply sum_ext. intros b Hb.
    rewrite scat_sum by auto. rewrite <- sum_scal_l. apply sum_ext; intros; ring. }
  rewrite G. unfold scat. destruct (find_ix f ds), (find_ix e ds); reflexivity.
Qed.
Lemma scat_diag_sum : forall ds v f e, NoDup ds ->
  scat_diag ds v f e = sum (length ds) (fun a => delta (nth a ds O) f * delta (nth a ds O) e * v).
Proof.
  intros ds v f e HN.
  rewrite (sum_ext _ _ (fun a => delta (nth a ds O) f * (delta (nth a ds O) e * v)))
    by (intros; ring).
  rewrite <- (scat_sum ds (fun a => delta (nth a ds O) e * v) f) by auto.
  unfold scat_diag, scat. destruct (find_ix f ds) as [a|] eqn:E; [|reflexivity].
  destruct (find_ix_spec _ _ _ E) as [_ ->]. unfold delta.
  destruct (Nat.eqb f e); ring.
Qed.
