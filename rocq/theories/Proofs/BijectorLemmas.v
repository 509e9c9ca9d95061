(** Proofs about the bijectors. *)
From Coq Require Import Reals Lra.
From Verif Require Import Model.Bijectors Spec.BijectorSpec.
Open Scope R_scope.
Local Arguments pow : simpl never.

Lemma eps_pos : 0 < eps300.
Proof. unfold eps300. apply Rinv_0_lt_compat, pow_lt. lra. Qed.
Lemma eps_small : eps300 < / 1000.
Proof.
  unfold eps300. apply Rinv_lt_contravar.
  - apply Rmult_lt_0_compat; [lra|]. apply pow_lt; lra.
  - replace 300%nat with (4 + 296)%nat by reflexivity. rewrite pow_add.
    assert (1 <= 10 ^ 296) by (apply pow_R1_Rle; lra).
    replace (10 ^ 4) with 10000 by ring. lra.
Qed.
Lemma ex_ge : forall x, 1 + x <= exp x.
Proof. intros. apply exp_ineq1_le. Qed.
Lemma ln_le_sub : forall u, 0 < u -> ln u <= u - 1.
Proof.
  intros u Hu. pose proof (ex_ge (u - 1)) as H. replace (1 + (u - 1)) with u in H by ring.
  rewrite <- (ln_exp (u - 1)). destruct H as [H|H]; [left; now apply ln_increasing|right; now rewrite <- H].
Qed.
Lemma ln_le : forall a b, 0 < a -> a <= b -> ln a <= ln b.
Proof. intros a b Ha [H|<-]; [left; now apply ln_increasing|lra]. Qed.
Lemma exp_le : forall a b, a <= b -> exp a <= exp b.
Proof. intros a b [H|<-]; [left; now apply exp_increasing|lra]. Qed.

(** unshifted softplus *)
Definition sp0 (x : R) : R := ln (exp x + 1).
Lemma softplus_eq : forall x, softplus x = sp0 x + eps300.
Proof. intros. unfold softplus, logaddexp, sp0. now rewrite exp_0. Qed.
Lemma sp0_pos : forall x, 0 < sp0 x.
Proof.
  intros. unfold sp0. rewrite <- ln_1. pose proof (exp_pos x). apply ln_increasing; lra.
Qed.
Lemma sp0_gt : forall x, x < sp0 x.
Proof.
  intros. unfold sp0. rewrite <- (ln_exp x) at 1. pose proof (exp_pos x). apply ln_increasing; lra.
Qed.
Lemma sp0_incr : forall x y, x < y -> sp0 x < sp0 y.
Proof.
  intros x y H. unfold sp0. pose proof (exp_pos x). apply ln_increasing; [lra|].
  apply Rplus_lt_compat_r. now apply exp_increasing.
Qed.
Lemma exp_sp0 : forall x, exp (sp0 x) = exp x + 1.
Proof. intros. unfold sp0. apply exp_ln. pose proof (exp_pos x). lra. Qed.
Lemma sp0_lip : forall x d, 0 <= d -> sp0 x - d <= sp0 (x - d).
Proof.
  intros x d Hd. unfold sp0.
  replace (ln (exp x + 1) - d) with (ln (exp (- d) * (exp x + 1))).
  - apply ln_le.
    + apply Rmult_lt_0_compat; [apply exp_pos|]. pose proof (exp_pos x). lra.
    + unfold Rminus. rewrite exp_plus.
      assert (exp (- d) <= 1) by (rewrite <- exp_0; apply exp_le; lra). lra.
  - rewrite ln_mult, ln_exp; [ring|apply exp_pos|]. pose proof (exp_pos x). lra.
Qed.
Lemma softplus_pos : forall x, 0 < softplus x.
Proof. intros. rewrite softplus_eq. pose proof (sp0_pos x). pose proof eps_pos. lra. Qed.
Lemma softplus_incr : forall x y, x < y -> softplus x < softplus y.
Proof. intros x y H. rewrite !softplus_eq. pose proof (sp0_incr x y H). lra. Qed.

(** inverse softplus on its domain *)
Definition isp (y : R) : R := ln (exp y - 1).
Lemma exp_gt1 : forall y, 0 < y -> 1 < exp y.
Proof. intros y H. rewrite <- exp_0. now apply exp_increasing. Qed.
Lemma isp_some : forall y, 0 < y -> inverse_softplus y = Some (isp y).
Proof.
  intros y H. unfold inverse_softplus, jlog, expm1, isp.
  assert (E : 0 < - (exp (- y) - 1)).
  { assert (exp (- y) < 1) by (rewrite <- exp_0; apply exp_increasing; lra). lra. }
  destruct (Rlt_dec 0 _) as [P|P]; [|lra]. simpl. f_equal.
  rewrite <- (ln_exp y) at 1. rewrite <- ln_mult; [|apply exp_pos|auto]. f_equal.
  assert (exp y * exp (- y) = 1) by (rewrite <- exp_plus, Rplus_opp_r; apply exp_0).
  replace (exp y * - (exp (- y) - 1)) with (exp y - exp y * exp (- y)) by ring. lra.
Qed.
Lemma isp_none : forall y, y <= 0 -> inverse_softplus y = None.
Proof.
  intros y H. unfold inverse_softplus, jlog, expm1.
  destruct (Rlt_dec 0 _) as [P|P]; [|reflexivity].
  assert (1 <= exp (- y)) by (rewrite <- exp_0; apply exp_le; lra). lra.
Qed.
Lemma sp0_isp : forall y, 0 < y -> sp0 (isp y) = y.
Proof.
  intros y H. unfold sp0, isp. pose proof (exp_gt1 y H).
  rewrite exp_ln by lra. replace (exp y - 1 + 1) with (exp y) by ring. apply ln_exp.
Qed.
Lemma isp_sp0 : forall x, isp (sp0 x) = x.
Proof.
  intros x. unfold isp. rewrite exp_sp0. replace (exp x + 1 - 1) with (exp x) by ring. apply ln_exp.
Qed.
Lemma isp_incr : forall x y, 0 < x -> x < y -> isp x < isp y.
Proof.
  intros x y H0 H. unfold isp. pose proof (exp_gt1 x H0). apply ln_increasing; [lra|].
  pose proof (exp_increasing x y H). lra.
Qed.
(** isp (sp0 x + d) exceeds x by at least d and at most d (1 + exp(-x)) *)
Lemma isp_shift : forall x d, 0 <= d -> x + d <= isp (sp0 x + d) <= x + d + d * exp (- x).
Proof.
  intros x d Hd. unfold isp. rewrite exp_plus, exp_sp0.
  pose proof (exp_pos x) as Px. pose proof (exp_pos d) as Pd. pose proof (ex_ge d).
  split.
  - rewrite <- (ln_exp (x + d)). apply ln_le; [apply exp_pos|]. rewrite exp_plus. lra.
  - replace ((exp x + 1) * exp d - 1) with (exp (x + d) * (1 + (1 - exp (- d)) * exp (- x))).
    + assert (E1 : exp (- d) <= 1) by (rewrite <- exp_0; apply exp_le; lra).
      assert (P : 0 <= (1 - exp (- d)) * exp (- x)).
      { apply Rmult_le_pos; [lra|left; apply exp_pos]. }
      rewrite ln_mult, ln_exp; [|apply exp_pos|lra].
      apply Rplus_le_compat_l. eapply Rle_trans; [apply ln_le_sub; lra|].
      replace (1 + (1 - exp (- d)) * exp (- x) - 1) with ((1 - exp (- d)) * exp (- x)) by ring.
      apply Rmult_le_compat_r; [left; apply exp_pos|]. pose proof (ex_ge (- d)). lra.
    + rewrite exp_plus.
      assert (Ex : exp x * exp (- x) = 1) by (rewrite <- exp_plus, Rplus_opp_r; apply exp_0).
      assert (Ed : exp d * exp (- d) = 1) by (rewrite <- exp_plus, Rplus_opp_r; apply exp_0).
      replace (exp x * exp d * (1 + (1 - exp (- d)) * exp (- x)))
        with (exp x * exp d + (exp x * exp (- x)) * (exp d - exp d * exp (- d))) by ring.
      rewrite Ex, Ed. ring.
Qed.

(** ** C20 *)
Lemma sp_width : forall w, 0 < w -> 0 < w / softplus w < 1.
Proof.
  intros w Hw. pose proof (softplus_pos w) as P. split; [now apply Rdiv_lt_0_compat|].
  apply Rmult_lt_reg_r with (softplus w); auto. unfold Rdiv.
  rewrite Rmult_assoc, Rinv_l by lra. rewrite softplus_eq.
  pose proof (sp0_gt w). pose proof eps_pos. lra.
Qed.
Lemma smm_eq : forall x m M, m < M ->
  softminmax x m M = M - softplus (M - m - softplus (x - m)) * ((M - m) / softplus (M - m)).
Proof.
  intros x m M H. unfold softminmax. pose proof (softplus_pos (M - m)). field. lra.
Qed.
Lemma forward_range : forall b x, bij_ok b -> in_range b (forward b x).
Proof.
  intros b x H. destruct b as [|m|M|m M|]; unfold in_range, inside; simpl in *.
  - apply softplus_pos.
  - unfold softmin. pose proof (softplus_pos (x - m)). lra.
  - unfold softmax. pose proof (softplus_pos (M - x)). lra.
  - rewrite smm_eq by auto. destruct (sp_width (M - m)) as [W1 W2]; [lra|].
    pose proof (softplus_pos (M - m - softplus (x - m))) as P1.
    pose proof (softplus_pos (x - m)) as P2. pose proof (softplus_pos (M - m)) as P3.
    assert (L : softplus (M - m - softplus (x - m)) < softplus (M - m)) by (apply softplus_incr; lra).
    split.
    + assert (softplus (M - m - softplus (x - m)) * ((M - m) / softplus (M - m)) < M - m); [|lra].
      replace (M - m) with (softplus (M - m) * ((M - m) / softplus (M - m))) at 4 by (field; lra).
      now apply Rmult_lt_compat_r.
    + assert (0 < softplus (M - m - softplus (x - m)) * ((M - m) / softplus (M - m)))
        by now apply Rmult_lt_0_compat. lra.
  - exact I.
Qed.
Lemma softplus_onto : forall y, eps300 < y -> exists x, softplus x = y.
Proof.
  intros y H. exists (isp (y - eps300)). rewrite softplus_eq, sp0_isp by lra. ring.
Qed.
Lemma forward_onto : forall b y, bij_ok b -> inside (/ 10 ^ 300) b y -> exists x, forward b x = y.
Proof.
  intros b y H Hy. change (/ 10 ^ 300) with eps300 in Hy. destruct b as [|m|M|m M|]; simpl in *.
  - now apply softplus_onto.
  - destruct (softplus_onto (y - m)) as [x Hx]; [lra|]. exists (x + m). unfold softmin.
    replace (x + m - m) with x by ring. rewrite Hx. ring.
  - destruct (softplus_onto (M - y)) as [x Hx]; [lra|]. exists (M - x). unfold softmax.
    replace (M - (M - x)) with x by ring. rewrite Hx. ring.
  - destruct (sp_width (M - m)) as [W1 W2]; [lra|]. pose proof (softplus_pos (M - m)) as P.
    pose proof eps_pos as E.
    set (q := (M - m) / softplus (M - m)) in *.
    set (B := (M - y) / q).
    assert (Eq : softplus (M - m) * q = M - m) by (unfold q; field; lra).
    assert (B1 : eps300 < B).
    { unfold B. apply Rmult_lt_reg_r with q; auto. unfold Rdiv. rewrite Rmult_assoc, Rinv_l by lra.
      assert (eps300 * q < eps300 * 1) by (apply Rmult_lt_compat_l; lra). lra. }
    destruct (softplus_onto B B1) as [u Hu].
    assert (B2 : u < M - m - eps300).
    { destruct (Rlt_le_dec u (M - m - eps300)) as [L|L]; auto. exfalso.
      assert (softplus (M - m) - eps300 <= softplus u).
      { rewrite !softplus_eq. pose proof (sp0_lip (M - m) eps300 ltac:(lra)).
        destruct L as [L|L]; [pose proof (sp0_incr _ _ L); lra|rewrite <- L; lra]. }
      rewrite Hu in H0. unfold B in H0. apply (Rmult_le_compat_r q) in H0; [|lra].
      unfold Rdiv in H0. rewrite (Rmult_assoc (M - y)), Rinv_l in H0 by lra.
      assert (eps300 * q < eps300 * 1) by (apply Rmult_lt_compat_l; lra).
      rewrite Rmult_minus_distr_r, Eq in H0. lra. }
    destruct (softplus_onto (M - m - u)) as [z Hz]; [lra|].
    exists (z + m). rewrite smm_eq by auto. replace (z + m - m) with z by ring. rewrite Hz.
    replace (M - m - (M - m - u)) with u by ring. rewrite Hu. fold q. unfold B. field. lra.
  - exists y. reflexivity.
Qed.

(** ** C22 *)
Lemma forward_incr : forall b x y, bij_ok b -> x < y -> forward b x < forward b y.
Proof.
  intros b x y H L. destruct b as [|m|M|m M|]; simpl in *; auto.
  - now apply softplus_incr.
  - unfold softmin. assert (softplus (x - m) < softplus (y - m)) by (apply softplus_incr; lra). lra.
  - unfold softmax. assert (softplus (M - y) < softplus (M - x)) by (apply softplus_incr; lra). lra.
  - rewrite !smm_eq by auto. destruct (sp_width (M - m)) as [W1 W2]; [lra|].
    assert (softplus (x - m) < softplus (y - m)) by (apply softplus_incr; lra).
    assert (softplus (M - m - softplus (y - m)) < softplus (M - m - softplus (x - m)))
      by (apply softplus_incr; lra).
    assert (softplus (M - m - softplus (y - m)) * ((M - m) / softplus (M - m))
      < softplus (M - m - softplus (x - m)) * ((M - m) / softplus (M - m)))
      by (apply Rmult_lt_compat_r; lra). lra.
Qed.

(** ** backward on its domain *)
Definition smm_in (m M y : R) : R := softplus (M - m) * ((M - y) / (M - m)).
Lemma smm_in_pos : forall m M y, m < M -> y < M -> 0 < smm_in m M y.
Proof.
  intros. unfold smm_in. apply Rmult_lt_0_compat; [apply softplus_pos|]. apply Rdiv_lt_0_compat; lra.
Qed.
Lemma smm_in_lt : forall m M y, m < M -> m + eps300 <= y -> smm_in m M y < sp0 (M - m).
Proof.
  intros m M y H Hy. unfold smm_in. pose proof (softplus_pos (M - m)) as P. pose proof eps_pos as E.
  assert (Q : softplus (M - m) * ((M - y) / (M - m)) <= softplus (M - m) * (1 - eps300 / (M - m))).
  { apply Rmult_le_compat_l; [lra|]. replace (1 - eps300 / (M - m)) with ((M - m - eps300) / (M - m)) by (field; lra).
    unfold Rdiv. apply Rmult_le_compat_r; [left; apply Rinv_0_lt_compat; lra|lra]. }
  eapply Rle_lt_trans; [exact Q|]. rewrite softplus_eq in *.
  pose proof (sp0_gt (M - m)). pose proof (sp0_pos (M - m)).
  replace ((sp0 (M - m) + eps300) * (1 - eps300 / (M - m)))
    with (sp0 (M - m) + eps300 - eps300 * ((sp0 (M - m) + eps300) / (M - m))) by (field; lra).
  assert (1 < (sp0 (M - m) + eps300) / (M - m)).
  { apply Rmult_lt_reg_r with (M - m); [lra|]. unfold Rdiv. rewrite Rmult_assoc, Rinv_l by lra. lra. }
  assert (eps300 * 1 < eps300 * ((sp0 (M - m) + eps300) / (M - m))) by (apply Rmult_lt_compat_l; lra).
  lra.
Qed.
Lemma isp_lt_iff : forall B w, 0 < B -> B < sp0 w -> isp B < w.
Proof. intros B w H L. rewrite <- (isp_sp0 w). now apply isp_incr. Qed.
Lemma backward_smm : forall m M y, m < M -> y < M -> m + eps300 <= y ->
  backward (SoftMinMax m M) y = Some (m + isp (M - m - isp (smm_in m M y)))
  /\ 0 < M - m - isp (smm_in m M y).
Proof.
  intros m M y H H1 H2. pose proof (smm_in_pos m M y H H1) as P.
  pose proof (isp_lt_iff _ _ P (smm_in_lt m M y H H2)) as Q.
  split; [|lra]. simpl. unfold inverse_softminmax. cbv zeta. fold (smm_in m M y).
  rewrite (isp_some (smm_in m M y)) by auto. simpl. rewrite isp_some by lra. reflexivity.
Qed.
Lemma forward_backward : forall b y, bij_ok b -> backward_dom b y ->
  exists x, backward b y = Some x /\ Rabs (forward b x - y) <= / 10 ^ 300.
Proof.
  intros b y Hb [Hr Hd]. pose proof eps_pos as E. change (/ 10 ^ 300) with eps300 in *.
  unfold in_range in Hr. destruct b as [|m|M|m M|]; simpl in Hb, Hr, Hd.
  - exists (isp y). split; [apply isp_some; lra|]. simpl. rewrite softplus_eq, sp0_isp by lra.
    rewrite Rabs_right; lra.
  - exists (isp (y - m) + m). split; [simpl; unfold inverse_softmin; rewrite isp_some by lra; reflexivity|].
    simpl. unfold softmin. replace (isp (y - m) + m - m) with (isp (y - m)) by ring.
    rewrite softplus_eq, sp0_isp by lra. rewrite Rabs_right; lra.
  - exists (- isp (M - y) + M). split; [simpl; unfold inverse_softmax; rewrite isp_some by lra; reflexivity|].
    simpl. unfold softmax. replace (M - (- isp (M - y) + M)) with (isp (M - y)) by ring.
    rewrite softplus_eq, sp0_isp by lra. rewrite Rabs_left1; lra.
  - assert (H1 : y < M) by lra. destruct (backward_smm m M y Hb H1 Hd) as [E1 E2].
    pose proof (smm_in_pos m M y Hb H1) as P.
    eexists. split; [exact E1|]. simpl forward. rewrite smm_eq by auto.
    replace (m + isp (M - m - isp (smm_in m M y)) - m) with (isp (M - m - isp (smm_in m M y))) by ring.
    rewrite (softplus_eq (isp (M - m - isp (smm_in m M y)))), sp0_isp by auto.
    replace (M - m - (M - m - isp (smm_in m M y) + eps300)) with (isp (smm_in m M y) - eps300) by ring.
    set (B := smm_in m M y) in *.
    assert (L1 : B <= softplus (isp B - eps300)).
    { rewrite softplus_eq. pose proof (sp0_lip (isp B) eps300 ltac:(lra)). rewrite sp0_isp in H by auto. lra. }
    assert (L2 : softplus (isp B - eps300) <= B + eps300).
    { rewrite softplus_eq. assert (sp0 (isp B - eps300) < sp0 (isp B)) by (apply sp0_incr; lra).
      rewrite sp0_isp in H by auto. lra. }
    destruct (sp_width (M - m)) as [W1 W2]; [lra|]. pose proof (softplus_pos (M - m)).
    set (q := (M - m) / softplus (M - m)) in *.
    assert (Bq : B * q = M - y) by (unfold B, smm_in, q; field; lra).
    assert (B * q <= softplus (isp B - eps300) * q) by (apply Rmult_le_compat_r; lra).
    assert (softplus (isp B - eps300) * q <= (B + eps300) * q) by (apply Rmult_le_compat_r; lra).
    assert (eps300 * q <= eps300 * 1) by (apply Rmult_le_compat_l; lra).
    rewrite Rabs_left1; lra.
  - exists y. split; [reflexivity|]. simpl. rewrite Rminus_eq_0, Rabs_R0. lra.
Qed.
Lemma backward_incr : forall b y z, bij_ok b -> backward_dom b y -> backward_dom b z -> y < z ->
  exists u v, backward b y = Some u /\ backward b z = Some v /\ u < v.
Proof.
  intros b y z Hb [Hr Hd] [Hr' Hd'] L. unfold in_range in *. change (/ 10 ^ 300) with eps300 in *.
  destruct b as [|m|M|m M|]; simpl in Hb, Hr, Hd, Hr', Hd'.
  - exists (isp y), (isp z). repeat split; try (apply isp_some; lra). apply isp_incr; lra.
  - exists (isp (y - m) + m), (isp (z - m) + m). simpl. unfold inverse_softmin.
    rewrite !isp_some by lra. repeat split. apply Rplus_lt_compat_r, isp_incr; lra.
  - exists (- isp (M - y) + M), (- isp (M - z) + M). simpl. unfold inverse_softmax.
    rewrite !isp_some by lra. repeat split.
    assert (isp (M - z) < isp (M - y)) by (apply isp_incr; lra). lra.
  - assert (H1 : y < M) by lra. assert (H2 : z < M) by lra.
    destruct (backward_smm m M y Hb H1 Hd) as [E1 E2].
    destruct (backward_smm m M z Hb H2 Hd') as [F1 F2].
    eexists. eexists. split; [exact E1|]. split; [exact F1|].
    apply Rplus_lt_compat_l. apply isp_incr; auto.
    assert (isp (smm_in m M z) < isp (smm_in m M y)); [|lra].
    apply isp_incr; [now apply smm_in_pos|]. unfold smm_in.
    apply Rmult_lt_compat_l; [apply softplus_pos|]. unfold Rdiv.
    apply Rmult_lt_compat_r; [apply Rinv_0_lt_compat; lra|lra].
  - exists y, z. auto.
Qed.
(** outside: SoftMinMax cannot invert values in the last 1e-300 w / softplus(w) above min *)
Lemma backward_smm_none : forall m M y, m < M -> m < y ->
  y <= m + / 10 ^ 300 * ((M - m) / softplus (M - m)) -> backward (SoftMinMax m M) y = None.
Proof.
  intros m M y H H1 H2. change (/ 10 ^ 300) with eps300 in *. pose proof (softplus_pos (M - m)) as P.
  pose proof eps_pos as E. destruct (sp_width (M - m)) as [W1 W2]; [lra|].
  simpl. unfold inverse_softminmax. cbv zeta. fold (smm_in m M y).
  assert (B : sp0 (M - m) <= smm_in m M y).
  { unfold smm_in. apply Rle_trans with (softplus (M - m) * ((M - (m + eps300 * ((M - m) / softplus (M - m)))) / (M - m))).
    - right. pose proof (softplus_eq (M - m)) as Q.
      replace (softplus (M - m) * ((M - (m + eps300 * ((M - m) / softplus (M - m)))) / (M - m)))
        with (softplus (M - m) - eps300) by (field; lra). lra.
    - apply Rmult_le_compat_l; [lra|]. unfold Rdiv. apply Rmult_le_compat_r; [|lra].
      left. apply Rinv_0_lt_compat. lra. }
  pose proof (sp0_pos (M - m)) as S. rewrite (isp_some (smm_in m M y)) by lra. simpl.
  rewrite isp_none; [reflexivity|].
  assert (M - m <= isp (smm_in m M y)).
  { rewrite <- (isp_sp0 (M - m)) at 1. destruct B as [B|B]; [left; now apply isp_incr|rewrite <- B; lra]. }
  lra.
Qed.

(** ** backward after forward *)
Lemma sp_round : forall x, exists x', inverse_softplus (softplus x) = Some x' /\
  x <= x' <= x + eps300 * (1 + exp (- x)).
Proof.
  intros x. exists (isp (softplus x)). split; [apply isp_some, softplus_pos|].
  rewrite softplus_eq. pose proof eps_pos. pose proof (isp_shift x eps300 ltac:(lra)). lra.
Qed.
Lemma backward_forward : forall b x, bij_ok b ->
  match b with SoftMinMax _ _ => round_err b x <= 1 | _ => True end ->
  exists x', backward b (forward b x) = Some x' /\ Rabs (x' - x) <= round_err b x.
Proof.
  intros b x Hb Hc. pose proof eps_pos as E. destruct b as [|m|M|m M|]; simpl in Hb, Hc.
  - destruct (sp_round x) as [x' [E1 E2]]. exists x'. split; auto. simpl.
    change (/ 10 ^ 300) with eps300. rewrite Rabs_right; lra.
  - destruct (sp_round (x - m)) as [x' [E1 E2]]. exists (x' + m). split.
    + simpl. unfold inverse_softmin, softmin. replace (softplus (x - m) + m - m) with (softplus (x - m)) by ring.
      now rewrite E1.
    + simpl. change (/ 10 ^ 300) with eps300. rewrite Rabs_right; lra.
  - destruct (sp_round (M - x)) as [x' [E1 E2]]. exists (- x' + M). split.
    + simpl. unfold inverse_softmax, softmax.
      replace (M - (- softplus (M - x) + M)) with (softplus (M - x)) by ring. now rewrite E1.
    + simpl. change (/ 10 ^ 300) with eps300. rewrite Rabs_left1; lra.
  - change (/ 10 ^ 300) with eps300 in Hc.
    assert (Bq : smm_in m M (softminmax x m M) = softplus (M - m - softplus (x - m))).
    { rewrite smm_eq by auto. unfold smm_in. pose proof (softplus_pos (M - m)). field. lra. }
    set (z := x - m) in *. set (w := M - m) in *. set (s := softplus z) in *.
    set (eta := eps300 * exp (s - w)) in *. set (kap := eta * (1 + exp (- z))) in *.
    assert (Eta : 0 <= eta) by (unfold eta; apply Rmult_le_pos; [lra|left; apply exp_pos]).
    assert (Kap : 0 <= kap).
    { unfold kap. apply Rmult_le_pos; auto. pose proof (exp_pos (- z)). lra. }
    pose proof (isp_shift (w - s) eps300 ltac:(lra)) as D.
    rewrite <- softplus_eq in D. set (t := isp (softplus (w - s))) in *.
    assert (D2 : t <= w - s + eps300 + eta).
    { replace eta with (eps300 * exp (- (w - s))); [lra|]. unfold eta. do 2 f_equal. ring. }
    (* w - t = sp0 z - (t - (w - s) - eps) *)
    set (r := t - (w - s) - eps300).
    assert (Hr : 0 <= r <= eta) by (unfold r; lra).
    assert (Wt : w - t = sp0 z - r) by (unfold r, s; rewrite softplus_eq; ring).
    pose proof (exp_pos z) as Pz. pose proof (exp_pos (- z)) as Pnz.
    assert (Ez : exp z * exp (- z) = 1) by (rewrite <- exp_plus, Rplus_opp_r; apply exp_0).
    assert (K1 : exp z * (1 - kap) <= exp (sp0 z - r) - 1).
    { replace (sp0 z - r) with (sp0 z + - r) by ring. rewrite exp_plus, exp_sp0. pose proof (ex_ge (- r)).
      assert ((exp z + 1) * (1 - eta) <= (exp z + 1) * exp (- r)) by (apply Rmult_le_compat_l; lra).
      replace (exp z * (1 - kap)) with (exp z - eta * (exp z + exp z * exp (- z))) by (unfold kap; ring).
      rewrite Ez. lra. }
    assert (K2 : exp (sp0 z - r) - 1 <= exp z).
    { assert (exp (sp0 z - r) <= exp (sp0 z)) by (apply exp_le; lra). rewrite exp_sp0 in H. lra. }
    assert (Khalf : kap <= / 2) by lra.
    assert (K0 : 0 < exp z * (1 - kap)) by (apply Rmult_lt_0_compat; lra).
    assert (Pos : 0 < sp0 z - r).
    { assert (1 < exp (sp0 z - r)) by lra. rewrite <- exp_0 in H. now apply exp_lt_inv. }
    exists (m + isp (sp0 z - r)). split.
    + simpl. unfold inverse_softminmax. cbv zeta. fold (smm_in m M (softminmax x m M)). rewrite Bq. fold w.
      rewrite (isp_some (softplus (w - s))) by apply softplus_pos. simpl. fold t. rewrite Wt.
      rewrite isp_some by auto. reflexivity.
    + assert (U : isp (sp0 z - r) <= z).
      { unfold isp. rewrite <- (ln_exp z) at 2. apply ln_le; lra. }
      assert (Lw : z - 2 * kap <= isp (sp0 z - r)).
      { unfold isp. apply Rle_trans with (ln (exp z * (1 - kap))); [|now apply ln_le].
        rewrite ln_mult, ln_exp by lra. unfold Rminus at 1. apply Rplus_le_compat_l.
        assert (L : ln (/ (1 - kap)) <= / (1 - kap) - 1).
        { apply ln_le_sub. apply Rinv_0_lt_compat. lra. }
        rewrite ln_Rinv in L by lra.
        assert (/ (1 - kap) - 1 <= 2 * kap).
        { replace (/ (1 - kap) - 1) with (kap * / (1 - kap)) by (field; lra).
          rewrite (Rmult_comm 2). apply Rmult_le_compat_l; auto.
          rewrite <- (Rinv_inv 2). apply Rinv_le_contravar; lra. }
        lra. }
      simpl. change (/ 10 ^ 300) with eps300. fold z w s. fold eta. fold kap.
      unfold z in U, Lw |- *. rewrite Rabs_left1; lra.
  - exists x. split; [reflexivity|]. simpl. rewrite Rminus_eq_0, Rabs_R0. lra.
Qed.
