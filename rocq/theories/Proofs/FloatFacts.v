(** Proofs about the distances, kernels and bijectors evaluated in binary64. *)
From Coq Require Import Reals List Permutation Lia Lra Psatz ZArith.
From Flocq Require Import Core Relative Plus_error Mult_error.
From Verif Require Import Base.Sums Model.Distances Model.Bijectors Model.FloatDistances Spec.FloatSpec.
Import ListNotations.
Open Scope R_scope.

Notation u := unit_roundoff.
Notation eta := underflow.
Notation format := (generic_format radix2 (FLT_exp (-1074) 53)).
Local Instance prec53 : Prec_gt_0 53.
Proof. red; lia. Qed.

(** * One rounding *)
Lemma u_pos : 0 < u.
Proof. unfold u. apply Rmult_lt_0_compat; [lra|apply bpow_gt_0]. Qed.
Lemma eta_pos : 0 < eta.
Proof. unfold eta. apply Rmult_lt_0_compat; [lra|apply bpow_gt_0]. Qed.
Lemma u_val : u = / 2 ^ 53.
Proof.
  unfold u. change (bpow radix2 (-52)) with (/ IZR (2 ^ 52)).
  replace (2 ^ 53) with (IZR (2 ^ 53)).
  - change (2 ^ 53)%Z with (2 * 2 ^ 52)%Z. rewrite mult_IZR. field. apply not_0_IZR. discriminate.
  - change 53%Z with (Z.of_nat 53). rewrite <- pow_IZR. reflexivity.
Qed.
Lemma fl_format : forall x, format (fl x).
Proof. intros. apply generic_format_round; typeclasses eauto. Qed.
Lemma fl_id : forall x, format x -> fl x = x.
Proof. intros. apply round_generic; [typeclasses eauto|assumption]. Qed.
Lemma fl_le : forall x y, x <= y -> fl x <= fl y.
Proof. intros. apply round_le; [typeclasses eauto|typeclasses eauto|assumption]. Qed.
Lemma fl_0 : fl 0 = 0.
Proof. apply round_0. typeclasses eauto. Qed.
Lemma fl_ge : forall x y, format y -> y <= x -> y <= fl x.
Proof. intros x y Hy H. rewrite <- (fl_id y Hy). apply fl_le, H. Qed.
Lemma fl_le_format : forall x y, format y -> x <= y -> fl x <= y.
Proof. intros x y Hy H. rewrite <- (fl_id y Hy). apply fl_le, H. Qed.
Lemma fl_opp : forall x, fl (- x) = - fl x.
Proof.
  intros. apply round_NE_opp.
Qed.
Lemma format_opp : forall x, format x -> format (- x).
Proof. intros. apply generic_format_opp. assumption. Qed.
Lemma binary64_format : forall x, binary64 x <-> format x.
Proof.
  intros x. split.
  - intros (m & e & -> & Hm & He). apply generic_format_FLT.
    exists (Float radix2 m e); [reflexivity|exact Hm|exact He].
  - intros H. apply FLT_format_generic in H; [|typeclasses eauto].
    destruct H as [[m e] -> Hm He]. exists m, e. split; [reflexivity|]. split; assumption.
Qed.

Lemma fl_err : forall x, Rabs (fl x - x) <= u * Rabs x + eta.
Proof.
  intros x. destruct (error_N_FLT radix2 (-1074) 53 eq_refl (fun z => negb (Z.even z)) x) as (e & h & He & Hh & _ & E).
  unfold fl. rewrite E. replace (x * (1 + e) + h - x) with (e * x + h) by ring.
  eapply Rle_trans; [apply Rabs_triang|]. rewrite Rabs_mult.
  apply Rplus_le_compat; [|exact Hh].
  apply Rmult_le_compat_r; [apply Rabs_pos|exact He].
Qed.
Lemma fl_plus : forall x y, format x -> format y ->
  exists e, Rabs e <= u /\ fl (x + y) = (x + y) * (1 + e).
Proof.
  intros x y Hx Hy.
  destruct (FLT_plus_error_N_ex radix2 (-1074) 53 (fun z => negb (Z.even z)) x y Hx Hy) as (e & He & E).
  exists e. split; [|exact E].
  eapply Rle_trans; [exact He|]. apply u_rod1pu_ro_le_u_ro.
Qed.
Lemma fl_normal : forall x, bpow radix2 (-1022) <= Rabs x -> Rabs (fl x - x) <= u * Rabs x.
Proof.
  intros x H. apply (relative_error_N_FLT radix2 (-1074) 53 eq_refl (fun z => negb (Z.even z)) x).
  exact H.
Qed.
Lemma fl_double : forall x, format x -> fl (2 * x) = 2 * x.
Proof.
  intros x H. apply fl_id. replace (2 * x) with (x * bpow radix2 1) by (change (bpow radix2 1) with 2; ring).
  apply mult_bpow_pos_exact_FLT; [exact H|lia].
Qed.

(** * Sums in any order *)
Fixpoint lsum (l : list nat) (f : nat -> R) : R :=
  match l with [] => 0 | a :: l => f a + lsum l f end.
Lemma lsum_app : forall l m f, lsum (l ++ m) f = lsum l f + lsum m f.
Proof. induction l; intros; simpl; [ring|]. rewrite IHl. ring. Qed.
Lemma lsum_perm : forall l m f, Permutation l m -> lsum l f = lsum m f.
Proof. intros l m f H. induction H; simpl; lra. Qed.
Lemma lsum_seq : forall n f, lsum (seq 0 n) f = sum n f.
Proof.
  induction n; intros; [reflexivity|].
  rewrite seq_S, lsum_app, IHn. simpl. ring.
Qed.
Lemma adds_sum : forall n o f, adds n o -> lsum (added o) f = sum n f.
Proof. intros n o f H. rewrite (lsum_perm _ _ f H). apply lsum_seq. Qed.
Lemma lsum_nonneg : forall l f, (forall a, 0 <= f a) -> 0 <= lsum l f.
Proof. induction l; intros; simpl; [lra|]. specialize (IHl f H). specialize (H a). lra. Qed.
Lemma fsum_format : forall o f, (forall a, format (f a)) -> format (fsum o f).
Proof. induction o; intros; simpl; [apply generic_format_0|apply H|apply fl_format]. Qed.
Lemma lsum_abs : forall l f, Rabs (lsum l f) <= lsum l (fun a => Rabs (f a)).
Proof.
  induction l; intros; simpl; [rewrite Rabs_R0; lra|].
  eapply Rle_trans; [apply Rabs_triang|]. specialize (IHl f). lra.
Qed.
Lemma pow1_ge : forall D, 1 <= (1 + u) ^ D.
Proof. intros. apply pow_R1_Rle. pose proof u_pos. lra. Qed.
Lemma pow1_mono : forall d D, (d <= D)%nat -> (1 + u) ^ d <= (1 + u) ^ D.
Proof. intros. apply Rle_pow; [|assumption]. pose proof u_pos. lra. Qed.

Lemma fsum_err : forall o f, (forall a, format (f a)) ->
  Rabs (fsum o f - lsum (added o) f) <= ((1 + u) ^ depth o - 1) * lsum (added o) (fun a => Rabs (f a)).
Proof.
  induction o as [|a|l IHl r IHr]; intros f Hf; simpl.
  - replace (0 - 0) with 0 by ring. rewrite Rabs_R0. lra.
  - replace (f a - (f a + 0)) with 0 by ring. rewrite Rabs_R0. lra.
  - specialize (IHl f Hf). specialize (IHr f Hf).
    destruct (fl_plus (fsum l f) (fsum r f) (fsum_format l f Hf) (fsum_format r f Hf)) as (e & He & ->).
    rewrite !lsum_app.
    set (d := Nat.max (depth l) (depth r)).
    set (L := lsum (added l) f) in *. set (S := lsum (added r) f) in *.
    set (P := lsum (added l) (fun a => Rabs (f a))) in *. set (Q := lsum (added r) (fun a => Rabs (f a))) in *.
    assert (HP : 0 <= P) by (apply lsum_nonneg; intros; apply Rabs_pos).
    assert (HQ : 0 <= Q) by (apply lsum_nonneg; intros; apply Rabs_pos).
    assert (HL : Rabs L <= P) by apply lsum_abs.
    assert (HS : Rabs S <= Q) by apply lsum_abs.
    pose proof (pow1_mono (depth l) d (Nat.le_max_l _ _)) as Ml.
    pose proof (pow1_mono (depth r) d (Nat.le_max_r _ _)) as Mr.
    pose proof (pow1_ge d) as G. set (g := (1 + u) ^ d) in *.
    pose proof u_pos as U.
    assert (El : Rabs (fsum l f - L) <= (g - 1) * P) by (eapply Rle_trans; [exact IHl|apply Rmult_le_compat_r; lra]).
    assert (Er : Rabs (fsum r f - S) <= (g - 1) * Q) by (eapply Rle_trans; [exact IHr|apply Rmult_le_compat_r; lra]).
    set (a := fsum l f) in *. set (b := fsum r f) in *.
    replace ((a + b) * (1 + e) - (L + S)) with (((a - L) + (b - S)) * (1 + e) + (L + S) * e) by ring.
    eapply Rle_trans; [apply Rabs_triang|]. rewrite !Rabs_mult.
    assert (H1 : Rabs (a - L + (b - S)) <= (g - 1) * (P + Q)).
    { eapply Rle_trans; [apply Rabs_triang|]. lra. }
    assert (H2 : Rabs (1 + e) <= 1 + u).
    { eapply Rle_trans; [apply Rabs_triang|]. rewrite Rabs_R1. lra. }
    assert (H3 : Rabs (L + S) <= P + Q).
    { eapply Rle_trans; [apply Rabs_triang|]. lra. }
    pose proof (Rmult_le_compat _ _ _ _ (Rabs_pos _) (Rabs_pos _) H1 H2).
    pose proof (Rmult_le_compat _ _ _ _ (Rabs_pos _) (Rabs_pos _) H3 He).
    lra.
Qed.

(** rounded products, then added *)
Lemma fprod_err : forall n o p, adds n o ->
  Rabs (fsum o (fun a => fl (p a)) - sum n p)
    <= ((1 + u) ^ (depth o + 1) - 1) * sum n (fun a => Rabs (p a)) + (1 + u) ^ depth o * (INR n * eta).
Proof.
  intros n o p Ho.
  pose proof (fsum_err o (fun a => fl (p a)) (fun a => fl_format _)) as H.
  rewrite !(adds_sum n o _ Ho) in H.
  pose proof (pow1_ge (depth o)) as G. pose proof u_pos as U.
  assert (H1 : Rabs (sum n (fun a => fl (p a)) - sum n p) <= u * sum n (fun a => Rabs (p a)) + INR n * eta).
  { rewrite <- sum_minus. eapply Rle_trans; [apply sum_abs_le|].
    rewrite <- sum_scal_l, <- sum_const, <- sum_plus. apply sum_le. intros. apply fl_err. }
  assert (H2 : sum n (fun a => Rabs (fl (p a))) <= (1 + u) * sum n (fun a => Rabs (p a)) + INR n * eta).
  { rewrite <- sum_scal_l, <- sum_const, <- sum_plus. apply sum_le. intros i _.
    pose proof (fl_err (p i)). replace (fl (p i)) with ((fl (p i) - p i) + p i) by ring.
    eapply Rle_trans; [apply Rabs_triang|]. lra. }
  rewrite pow_add, pow_1. set (g := (1 + u) ^ depth o) in *.
  replace (fsum o (fun a => fl (p a)) - sum n p)
    with ((fsum o (fun a => fl (p a)) - sum n (fun a => fl (p a))) + (sum n (fun a => fl (p a)) - sum n p)) by ring.
  eapply Rle_trans; [apply Rabs_triang|].
  assert (Hg : 0 <= g - 1) by lra.
  pose proof (Rmult_le_compat_l _ _ _ Hg H2).
  lra.
Qed.

(** * The squared distance *)
Lemma one_plus : forall e, Rabs e <= u -> 0 <= 1 + e /\ 1 - u <= 1 + e <= 1 + u.
Proof.
  intros e H. apply Rabs_le_inv in H. assert (u < 1) by (rewrite u_val; lra). lra.
Qed.
Lemma jit_err : Rabs (fjit - jit12) <= u * jit12.
Proof.
  assert (P : 0 < jit12) by (unfold jit12; apply Rinv_0_lt_compat, pow_lt; lra).
  assert (H : Rabs jit12 = jit12) by (apply Rabs_pos_eq; lra).
  rewrite <- H at 2. unfold fjit. apply fl_normal. rewrite H.
  apply Rle_trans with (bpow radix2 (-40)); [apply bpow_le; lia|].
  unfold jit12. change (bpow radix2 (-40)) with (/ IZR (2 ^ 40)).
  apply Rinv_le_contravar; [apply pow_lt; lra|].
  change (2 ^ 40)%Z with 1099511627776%Z. lra.
Qed.
Lemma jit12_pos : 0 < jit12.
Proof. unfold jit12. apply Rinv_0_lt_compat, pow_lt. lra. Qed.

Lemma depth_err : forall n o p D, adds n o -> (depth o <= D)%nat ->
  Rabs (fsum o (fun a => fl (p a)) - sum n p)
    <= ((1 + u) ^ (D + 1) - 1) * sum n (fun a => Rabs (p a)) + (1 + u) ^ D * (INR n * eta).
Proof.
  intros n o p D Ho HD. eapply Rle_trans; [apply fprod_err, Ho|].
  pose proof eta_pos. pose proof (pos_INR n).
  apply Rplus_le_compat; apply Rmult_le_compat_r.
  - apply sum_nonneg. intros. apply Rabs_pos.
  - apply Rplus_le_compat_r, pow1_mono. lia.
  - apply Rmult_le_pos; lra.
  - apply pow1_mono, HD.
Qed.

Lemma square_prod : forall o z, fsquares o z = fdot o z z.
Proof.
  intros. unfold fsquares, fdot. induction o; cbn [fsum]; [reflexivity| |congruence].
  f_equal. ring.
Qed.
Lemma fdot_format : forall o z1 z2, format (fdot o z1 z2).
Proof. intros. apply fsum_format. intros. apply fl_format. Qed.

Lemma factor3 : forall a b c, Rabs a <= u -> Rabs b <= u -> Rabs c <= u ->
  Rabs ((1 + a) * (1 + b) * (1 + c) - 1) <= (1 + u) ^ 3 - 1.
Proof.
  intros a b c Ha Hb Hc. pose proof u_pos as U.
  replace ((1 + a) * (1 + b) * (1 + c) - 1) with (a + b + c + a * b + a * c + b * c + a * b * c) by ring.
  assert (Hab : Rabs (a * b) <= u * u) by (rewrite Rabs_mult; apply Rmult_le_compat; auto using Rabs_pos).
  assert (Hac : Rabs (a * c) <= u * u) by (rewrite Rabs_mult; apply Rmult_le_compat; auto using Rabs_pos).
  assert (Hbc : Rabs (b * c) <= u * u) by (rewrite Rabs_mult; apply Rmult_le_compat; auto using Rabs_pos).
  assert (Habc : Rabs (a * b * c) <= u * u * u) by (rewrite Rabs_mult; apply Rmult_le_compat; auto using Rabs_pos).
  apply Rabs_le_inv in Ha, Hb, Hc, Hab, Hac, Hbc, Habc.
  apply Rabs_le. simpl. lra.
Qed.
Lemma factor_weaken : forall a b, Rabs a <= u -> Rabs b <= u ->
  Rabs ((1 + a) * (1 + b) - 1) <= (1 + u) ^ 3 - 1.
Proof.
  intros. replace ((1 + a) * (1 + b)) with ((1 + a) * (1 + b) * (1 + 0)) by ring.
  apply factor3; auto. rewrite Rabs_R0. left. apply u_pos.
Qed.
Lemma factor_weaken1 : forall a, Rabs a <= u -> Rabs ((1 + a) - 1) <= (1 + u) ^ 3 - 1.
Proof.
  intros. replace (1 + a) with ((1 + a) * (1 + 0)) by ring.
  apply factor_weaken; auto. rewrite Rabs_R0. left. apply u_pos.
Qed.

Lemma fdistance2_err : forall n D o1 o2 o12 z1 z2,
  adds n o1 -> adds n o2 -> adds n o12 ->
  (depth o1 <= D)%nat -> (depth o2 <= D)%nat -> (depth o12 <= D)%nat ->
  Rabs (fdistance2 o1 o2 o12 z1 z2 - (distance2 n z1 z2 + jit12)) <= distance_error n D z1 z2.
Proof.
  intros n D o1 o2 o12 z1 z2 A1 A2 A12 D1 D2 D12.
  pose proof (depth_err n o1 (fun a => z1 a ^ 2) D A1 D1) as E1.
  pose proof (depth_err n o2 (fun a => z2 a ^ 2) D A2 D2) as E2.
  pose proof (depth_err n o12 (fun a => z1 a * z2 a) D A12 D12) as E12.
  cbn beta in E1, E2, E12. fold (fsquares o1 z1) in E1. fold (fsquares o2 z2) in E2. fold (fdot o12 z1 z2) in E12.
  assert (N : forall z, sum n (fun a => Rabs (z a ^ 2)) = norm2 n z).
  { intros. apply sum_ext. intros. apply Rabs_pos_eq, pow2_ge_0. }
  rewrite N in E1, E2. clear N. fold (norm2 n z1) in E1. fold (norm2 n z2) in E2.
  set (P := sum n (fun a => Rabs (z1 a * z2 a))) in *.
  assert (HP : 2 * P <= norm2 n z1 + norm2 n z2).
  { unfold P, norm2. rewrite <- sum_scal_l, <- sum_plus. apply sum_le. intros i _.
    rewrite Rabs_mult. pose proof (pow2_ge_0 (Rabs (z1 i) - Rabs (z2 i))) as H.
    rewrite <- (pow2_abs (z1 i)), <- (pow2_abs (z2 i)). lra. }
  assert (P0 : 0 <= P) by (apply sum_nonneg; intros; apply Rabs_pos).
  assert (HD : distance2 n z1 z2 = norm2 n z1 - 2 * sum n (fun a => z1 a * z2 a) + norm2 n z2).
  { unfold distance2, norm2. rewrite <- sum_scal_l, <- sum_minus, <- sum_plus. apply sum_ext. intros. ring. }
  assert (A0 : 0 <= norm2 n z1) by (apply sum_nonneg; intros; apply pow2_ge_0).
  assert (B0 : 0 <= norm2 n z2) by (apply sum_nonneg; intros; apply pow2_ge_0).
  assert (C0 : Rabs (sum n (fun a => z1 a * z2 a)) <= P) by apply sum_abs_le.
  rewrite HD. clear HD.
  unfold fdistance2.
  pose proof (fdot_format o12 z1 z2) as Fc.
  assert (Fs1 : format (fsquares o1 z1)) by (rewrite square_prod; apply fdot_format).
  assert (Fs2 : format (fsquares o2 z2)) by (rewrite square_prod; apply fdot_format).
  rewrite (fl_double _ Fc).
  assert (F2c : format (- (2 * fdot o12 z1 z2))) by (rewrite <- (fl_double _ Fc); apply format_opp, fl_format).
  destruct (fl_plus _ _ Fs1 F2c) as (e1 & He1 & Q1).
  destruct (fl_plus _ _ (fl_format (fsquares o1 z1 + - (2 * fdot o12 z1 z2))) Fs2) as (e2 & He2 & Q2).
  destruct (fl_plus _ _ (fl_format (fl (fsquares o1 z1 + - (2 * fdot o12 z1 z2)) + fsquares o2 z2)) (fl_format jit12))
    as (e3 & He3 & Q3).
  fold fjit in Q3. unfold Rminus at 2. rewrite Q3, Q2, Q1. clear Q1 Q2 Q3 Fc Fs1 Fs2 F2c.
  unfold distance_error.
  pose proof jit_err as EJ. pose proof jit12_pos as J0.
  set (s1 := fsquares o1 z1) in *. set (s2 := fsquares o2 z2) in *. set (c := fdot o12 z1 z2) in *.
  set (A := norm2 n z1) in *. set (B := norm2 n z2) in *. set (C := sum n (fun a => z1 a * z2 a)) in *.
  set (j := fjit) in *.
  pose proof (pow1_ge D) as G. pose proof u_pos as U. pose proof eta_pos as V. pose proof (pos_INR n) as N0.
  rewrite !pow_add, pow_1 in *. set (q := (1 + u) ^ D) in *.
  set (h := q * (INR n * eta)) in *.
  assert (h0 : 0 <= h) by (apply Rmult_le_pos; [lra|apply Rmult_le_pos; lra]).
  replace (4 * (q * (1 + u) ^ 3) * INR n * eta) with (4 * (1 + u) ^ 3 * h) by (unfold h; ring).
  set (w3 := (1 + u) ^ 3) in *.
  assert (W3 : 1 <= w3) by apply pow1_ge.
  replace ((1 + u) ^ 4) with (w3 * (1 + u)) by (unfold w3; ring).
  pose proof (factor3 e1 e2 e3 He1 He2 He3) as K1.
  pose proof (factor_weaken e2 e3 He2 He3) as K2.
  pose proof (factor_weaken1 e3 He3) as K3. fold w3 in K1, K2, K3.
  set (f1 := (1 + e1) * (1 + e2) * (1 + e3)) in *. set (f2 := (1 + e2) * (1 + e3)) in *. set (f3 := 1 + e3) in *.
  assert (S1 : Rabs s1 <= q * (1 + u) * A + h).
  { replace s1 with ((s1 - A) + A) by ring. eapply Rle_trans; [apply Rabs_triang|].
    rewrite (Rabs_pos_eq A A0). lra. }
  assert (S2 : Rabs s2 <= q * (1 + u) * B + h).
  { replace s2 with ((s2 - B) + B) by ring. eapply Rle_trans; [apply Rabs_triang|].
    rewrite (Rabs_pos_eq B B0). lra. }
  assert (S3 : Rabs c <= q * (1 + u) * P + h).
  { replace c with ((c - C) + C) by ring. eapply Rle_trans; [apply Rabs_triang|]. lra. }
  assert (S4 : Rabs j <= (1 + u) * jit12).
  { replace j with ((j - jit12) + jit12) by ring. eapply Rle_trans; [apply Rabs_triang|].
    rewrite (Rabs_pos_eq jit12) by lra. lra. }
  replace ((((s1 + - (2 * c)) * (1 + e1) + s2) * (1 + e2) + j) * f3 - (A - 2 * C + B + jit12))
    with ((s1 - A) + -2 * (c - C) + (s2 - B) + (j - jit12)
          + (s1 * (f1 - 1) + -2 * (c * (f1 - 1)) + s2 * (f2 - 1) + j * (f3 - 1))) by (unfold f1, f2, f3; ring).
  assert (T1 : Rabs (s1 * (f1 - 1)) <= (q * (1 + u) * A + h) * (w3 - 1)).
  { rewrite Rabs_mult. apply Rmult_le_compat; auto using Rabs_pos. }
  assert (T2 : Rabs (c * (f1 - 1)) <= (q * (1 + u) * P + h) * (w3 - 1)).
  { rewrite Rabs_mult. apply Rmult_le_compat; auto using Rabs_pos. }
  assert (T3 : Rabs (s2 * (f2 - 1)) <= (q * (1 + u) * B + h) * (w3 - 1)).
  { rewrite Rabs_mult. apply Rmult_le_compat; auto using Rabs_pos. }
  assert (T4 : Rabs (j * (f3 - 1)) <= ((1 + u) * jit12) * (w3 - 1)).
  { rewrite Rabs_mult. apply Rmult_le_compat; auto using Rabs_pos. }
  assert (QW : 1 <= q * (1 + u)) by (assert (W1 : 1 <= 1 + u) by lra; pose proof (Rmult_le_compat 1 q 1 (1 + u) Rle_0_1 Rle_0_1 G W1); lra).
  assert (Z : Rabs ((s1 - A) + -2 * (c - C) + (s2 - B) + (j - jit12)
          + (s1 * (f1 - 1) + -2 * (c * (f1 - 1)) + s2 * (f2 - 1) + j * (f3 - 1)))
     <= (q * (1 + u) * w3 - 1) * (A + 2 * P + B) + 4 * w3 * h + ((1 + u) * w3 - 1) * jit12).
  { apply Rabs_le_inv in E1, E2, E12, EJ, T1, T2, T3, T4. apply Rabs_le.
    assert (R : (q * (1 + u) * w3 - 1) * (A + 2 * P + B) + 4 * w3 * h + ((1 + u) * w3 - 1) * jit12
      = (q * (1 + u) - 1) * A + h + 2 * ((q * (1 + u) - 1) * P + h) + ((q * (1 + u) - 1) * B + h) + u * jit12
        + ((q * (1 + u) * A + h) * (w3 - 1) + 2 * ((q * (1 + u) * P + h) * (w3 - 1))
           + (q * (1 + u) * B + h) * (w3 - 1) + (1 + u) * jit12 * (w3 - 1))) by ring.
    rewrite R. clear R. lra. }
  eapply Rle_trans; [exact Z|].
  assert (X1 : 0 <= q * (1 + u) * w3 - 1).
  { pose proof (Rmult_le_compat 1 (q * (1 + u)) 1 w3 Rle_0_1 Rle_0_1 QW W3) as Y. lra. }
  assert (X2 : (q * (1 + u) * w3 - 1) * (A + 2 * P + B) <= (q * (1 + u) * w3 - 1) * (2 * (A + B))).
  { apply Rmult_le_compat_l; lra. }
  assert (X3 : (1 + u) * w3 <= q * ((1 + u) * w3)).
  { assert (Y : 0 <= (1 + u) * w3) by (apply Rmult_le_pos; lra).
    pose proof (Rmult_le_compat_r _ _ _ Y G). lra. }
  assert (X4 : ((1 + u) * w3 - 1) * jit12 <= (q * ((1 + u) * w3) - 1) * jit12).
  { apply Rmult_le_compat_r; lra. }
  replace (q * (w3 * (1 + u)) - 1) with (q * (1 + u) * w3 - 1) by ring.
  replace (q * ((1 + u) * w3) - 1) with (q * (1 + u) * w3 - 1) in X4 by ring.
  rewrite Rmult_plus_distr_l. lra.
Qed.

(** the distance of a point to itself *)
Lemma fdistance2_self : forall o z, fdistance2 o o o z z = fjit.
Proof.
  intros. unfold fdistance2. rewrite square_prod.
  pose proof (fdot_format o z z) as Fc. set (s := fdot o z z) in *.
  rewrite (fl_double s Fc). replace (s - 2 * s) with (- s) by ring.
  rewrite (fl_id (- s)) by (apply format_opp, Fc).
  replace (- s + s) with 0 by ring. rewrite fl_0, Rplus_0_l. apply fl_id, fl_format.
Qed.

Lemma fjit_le : fjit <= (1 + u) * jit12.
Proof. pose proof jit_err as H. apply Rabs_le_inv in H. lra. Qed.
Lemma far_points : forall n D o1 o2 o12 z1 z2,
  adds n o1 -> adds n o2 -> adds n o12 ->
  (depth o1 <= D)%nat -> (depth o2 <= D)%nat -> (depth o12 <= D)%nat ->
  distance_error n D z1 z2 + u * jit12 <= distance2 n z1 z2 ->
  fjit <= fdistance2 o1 o2 o12 z1 z2.
Proof.
  intros n D o1 o2 o12 z1 z2 A1 A2 A12 D1 D2 D12 H.
  pose proof (fdistance2_err n D o1 o2 o12 z1 z2 A1 A2 A12 D1 D2 D12) as E.
  apply Rabs_le_inv in E. pose proof fjit_le. lra.
Qed.

(** * The kernels *)
Lemma fse_bounded : forall fexp n D o1 o2 o12 o l x1 x2 x,
  (forall a b, a <= b -> fexp a <= fexp b) ->
  adds n o1 -> adds n o2 -> adds n o12 ->
  (depth o1 <= D)%nat -> (depth o2 <= D)%nat -> (depth o12 <= D)%nat ->
  distance_error n D (fscale l x1) (fscale l x2) + u * jit12 <= distance2 n (fscale l x1) (fscale l x2) ->
  fsquared_exponential fexp o1 o2 o12 l x1 x2 <= fsquared_exponential fexp o o o l x x.
Proof.
  intros. unfold fsquared_exponential. apply H. rewrite fdistance2_self.
  apply Ropp_le_contravar. eapply far_points; eassumption.
Qed.
Lemma fm12_bounded : forall fexp n D o1 o2 o12 o l x1 x2 x,
  (forall a b, a <= b -> fexp a <= fexp b) ->
  adds n o1 -> adds n o2 -> adds n o12 ->
  (depth o1 <= D)%nat -> (depth o2 <= D)%nat -> (depth o12 <= D)%nat ->
  distance_error n D (fscale l x1) (fscale l x2) + u * jit12 <= distance2 n (fscale l x1) (fscale l x2) ->
  fmatern12 fexp o1 o2 o12 l x1 x2 <= fmatern12 fexp o o o l x x.
Proof.
  intros fexp n D o1 o2 o12 o l x1 x2 x M A1 A2 A12 D1 D2 D12 H.
  unfold fmatern12. apply M. rewrite fdistance2_self.
  apply Ropp_le_contravar, fl_le, sqrt_le_1_alt.
  pose proof (far_points n D o1 o2 o12 _ _ A1 A2 A12 D1 D2 D12 H).
  apply Rmax_lub; [|apply Rmax_r]. eapply Rle_trans; [exact H0|apply Rmax_l].
Qed.
Lemma fm12_le_1 : forall fexp o1 o2 o12 l x1 x2,
  (forall a b, a <= b -> fexp a <= fexp b) -> fexp 0 = 1 ->
  fmatern12 fexp o1 o2 o12 l x1 x2 <= 1.
Proof.
  intros fexp o1 o2 o12 l x1 x2 M Z. unfold fmatern12. rewrite <- Z. apply M.
  assert (0 <= fl (sqrt (Rmax (fdistance2 o1 o2 o12 (fscale l x1) (fscale l x2)) (fl (/ 10 ^ 36))))).
  { rewrite <- fl_0. apply fl_le, sqrt_pos. }
  lra.
Qed.

(** * The bijectors *)
Lemma fl_eps_pos : 0 < fl eps300.
Proof.
  assert (E : bpow radix2 (-1000) <= eps300).
  { unfold eps300. replace (/ 10 ^ 300) with (/ IZR (10 ^ 300)).
    2: { f_equal. change 300%Z with (Z.of_nat 300). rewrite <- pow_IZR. reflexivity. }
    change (bpow radix2 (-1000)) with (/ IZR (2 ^ 1000)).
    apply Rinv_le_contravar; [apply IZR_lt; reflexivity|apply IZR_le]. apply Z.leb_le. vm_compute. reflexivity. }
  eapply Rlt_le_trans; [apply (bpow_gt_0 radix2 (-1000))|].
  apply fl_ge; [|exact E]. apply generic_format_bpow. unfold FLT_exp. lia.
Qed.
Lemma fsoftplus_lower : forall lae x, 0 <= lae x -> fl eps300 <= fsoftplus lae x.
Proof.
  intros. unfold fsoftplus. apply fl_ge; [apply fl_format|]. lra.
Qed.
Lemma fsoftmin_lower : forall lae x m, (forall y, 0 <= lae y) -> format m -> m <= fsoftmin lae x m.
Proof.
  intros lae x m H F. unfold fsoftmin. apply fl_ge; [exact F|].
  pose proof (fsoftplus_lower lae (fl (x - m)) (H _)). pose proof fl_eps_pos. lra.
Qed.
Lemma fsoftmax_upper : forall lae x m, (forall y, 0 <= lae y) -> format m -> fsoftmax lae x m <= m.
Proof.
  intros lae x m H F. unfold fsoftmax. apply fl_le_format; [exact F|].
  pose proof (fsoftplus_lower lae (fl (m - x)) (H _)). pose proof fl_eps_pos. lra.
Qed.

(** * Exact values, for the examples *)
Lemma fl_int : forall N k, (Z.abs N <= 2 ^ 53)%Z -> (-1074 <= k)%Z -> fl (IZR N * bpow radix2 k) = IZR N * bpow radix2 k.
Proof.
  intros N k HN Hk. apply fl_id.
  destruct (Z.eq_dec (Z.abs N) (2 ^ 53)) as [E|E].
  - assert (G : format (bpow radix2 (53 + k))) by (apply generic_format_bpow; unfold FLT_exp; lia).
    rewrite bpow_plus in G. change (bpow radix2 53) with (IZR (2 ^ 53)) in G.
    destruct (Z.abs_spec N) as [[_ A]|[_ A]]; rewrite A in E.
    + rewrite E. exact G.
    + replace N with (- 2 ^ 53)%Z by lia. rewrite opp_IZR, <- Ropp_mult_distr_l. apply format_opp, G.
  - apply generic_format_FLT. exists (Float radix2 N k); [reflexivity| |exact Hk].
    cbn -[Z.pow]. change (Z.pow (radix_val radix2) 53) with (2 ^ 53)%Z. lia.
Qed.
Lemma fl_near : forall N k s m, (0 <= s)%Z -> (-1074 <= k + s)%Z ->
  (2 ^ (52 + s) <= Z.abs N < 2 ^ (53 + s))%Z -> (2 * Z.abs (N - m * 2 ^ s) < 2 ^ s)%Z ->
  fl (IZR N * bpow radix2 k) = IZR (m * 2 ^ s) * bpow radix2 k.
Proof.
  intros N k s m Hs Hk HN Hm. unfold fl, round.
  assert (P : forall t, (0 <= t)%Z -> bpow radix2 t = IZR (2 ^ t)).
  { intros. rewrite <- (IZR_Zpower radix2) by assumption. reflexivity. }
  assert (C : cexp radix2 (FLT_exp (-1074) 53) (IZR N * bpow radix2 k) = (k + s)%Z).
  { unfold cexp. rewrite (mag_unique radix2 (IZR N * bpow radix2 k) (53 + s + k)).
    - unfold FLT_exp. lia.
    - rewrite Rabs_mult, (Rabs_pos_eq (bpow radix2 k)) by apply bpow_ge_0. rewrite <- abs_IZR.
      replace (53 + s + k - 1)%Z with ((52 + s) + k)%Z by ring.
      rewrite !(bpow_plus _ _ k), (P (52 + s)%Z), (P (53 + s)%Z) by lia. pose proof (bpow_gt_0 radix2 k).
      split; [apply Rmult_le_compat_r; [lra|apply IZR_le; lia]|apply Rmult_lt_compat_r; [lra|apply IZR_lt; lia]]. }
  rewrite C. unfold scaled_mantissa. rewrite C.
  rewrite (Znearest_imp _ _ m).
  - unfold F2R. cbn [Fnum Fexp]. rewrite (Z.add_comm k s), bpow_plus, mult_IZR, (P s Hs). ring.
  - assert (Q : 0 < IZR (2 ^ s)) by (rewrite <- P by assumption; apply bpow_gt_0).
    replace (IZR N * bpow radix2 k * bpow radix2 (- (k + s))) with (IZR N / IZR (2 ^ s)).
    2: { rewrite Rmult_assoc, <- bpow_plus. replace (k + - (k + s))%Z with (- s)%Z by ring.
         rewrite bpow_opp, P by assumption. reflexivity. }
    replace (IZR N / IZR (2 ^ s) - IZR m) with (IZR (N - m * 2 ^ s) / IZR (2 ^ s)).
    2: { rewrite minus_IZR, mult_IZR. field. lra. }
    unfold Rdiv. rewrite Rabs_mult, (Rabs_pos_eq (/ _)) by (left; apply Rinv_0_lt_compat, Q).
    rewrite <- abs_IZR. apply IZR_lt in Hm. rewrite mult_IZR in Hm.
    apply (Rmult_lt_reg_r (IZR (2 ^ s)) _ _ Q). rewrite Rmult_assoc, Rinv_l by lra. lra.
Qed.
