(** The statements of C74 from the facts and the examples. *)
From Coq Require Import Reals List Lia Lra.
From Flocq Require Import Core.
From Verif Require Import Base.Sums Base.Mat Model.Distances Model.Bijectors Model.GPR Model.FloatDistances
  Spec.FloatSpec Proofs.FloatFacts Proofs.FloatExamples.
Open Scope R_scope.

Lemma distance_bound : forall n D o1 o2 o12 z1 z2,
  adds n o1 -> adds n o2 -> adds n o12 ->
  (depth o1 <= D)%nat -> (depth o2 <= D)%nat -> (depth o12 <= D)%nat ->
  Rabs (fdistance2 o1 o2 o12 z1 z2 - (sum n (fun a => (z1 a - z2 a) ^ 2) + / 10 ^ 12))
    <= ((1 + / 2 ^ 53) ^ (D + 4) - 1)
         * (2 * (sum n (fun a => z1 a ^ 2) + sum n (fun a => z2 a ^ 2)) + / 10 ^ 12)
       + 4 * (1 + / 2 ^ 53) ^ (D + 3) * INR n * (/ 2 * bpow radix2 (-1074)).
Proof. rewrite <- u_val. exact fdistance2_err. Qed.
Lemma swap_bound : forall n D o1 o2 o12 p1 p2 p12 z1 z2,
  adds n o1 -> adds n o2 -> adds n o12 -> adds n p1 -> adds n p2 -> adds n p12 ->
  (depth o1 <= D)%nat -> (depth o2 <= D)%nat -> (depth o12 <= D)%nat ->
  (depth p1 <= D)%nat -> (depth p2 <= D)%nat -> (depth p12 <= D)%nat ->
  Rabs (fdistance2 o1 o2 o12 z1 z2 - fdistance2 p1 p2 p12 z2 z1) <= 2 * distance_error n D z1 z2 /\
  Rabs (fdistance2 o1 o2 o12 z1 z2 - fdistance2 p1 p2 p12 z1 z2) <= 2 * distance_error n D z1 z2.
Proof.
  intros n D o1 o2 o12 p1 p2 p12 z1 z2 A1 A2 A12 B1 B2 B12 D1 D2 D12 E1 E2 E12.
  pose proof (fdistance2_err n D o1 o2 o12 z1 z2 A1 A2 A12 D1 D2 D12) as P.
  pose proof (fdistance2_err n D p1 p2 p12 z2 z1 B1 B2 B12 E1 E2 E12) as Q.
  pose proof (fdistance2_err n D p1 p2 p12 z1 z2 B1 B2 B12 E1 E2 E12) as S.
  assert (X : distance_error n D z2 z1 = distance_error n D z1 z2).
  { unfold distance_error. rewrite (Rplus_comm (norm2 n z2)). reflexivity. }
  assert (Y : distance2 n z2 z1 = distance2 n z1 z2) by (apply sum_ext; intros; ring).
  rewrite X, Y in Q. apply Rabs_le_inv in P, Q, S. split; apply Rabs_le; lra.
Qed.
Lemma not_symmetric : exists z1 z2, (forall a : nat, binary64 (z1 a) /\ binary64 (z2 a)) /\
  fdistance2 one one one z1 z2 <> fdistance2 one one one z2 z1.
Proof.
  exists skew1, skew2. split; [exact skew_binary64|]. pose proof skew_distance. lra.
Qed.
Lemma not_nonnegative : exists z1 z2, (forall a, binary64 (z1 a) /\ binary64 (z2 a)) /\
  0 < sum 1 (fun a => (z1 a - z2 a) ^ 2) /\ fdistance2 one one one z1 z2 < 0.
Proof.
  exists near1, near2. split; [|split].
  - intros a. split; [apply (near_binary64 0)|apply (near_binary64 1)].
  - cbn [sum]. rewrite Rplus_0_l. apply Rlt_le_trans with ((b (-20)) * (b (-20))).
    + apply Rmult_lt_0_compat; apply bpow_gt_0.
    + right. unfold near1, near2. change (2 ^ 28 + 7)%Z with (2 ^ 28 + 6 + 1)%Z. rewrite (plus_IZR _ 1). ring.
  - pose proof near_distance. pose proof (bpow_gt_0 radix2 (-37)). lra.
Qed.
Lemma both_bounded : forall fexp n D o1 o2 o12 o l x1 x2 x,
  (forall a b, a <= b -> fexp a <= fexp b) ->
  adds n o1 -> adds n o2 -> adds n o12 ->
  (depth o1 <= D)%nat -> (depth o2 <= D)%nat -> (depth o12 <= D)%nat ->
  distance_error n D (fscale l x1) (fscale l x2) + unit_roundoff * / 10 ^ 12
    <= distance2 n (fscale l x1) (fscale l x2) ->
  fsquared_exponential fexp o1 o2 o12 l x1 x2 <= fsquared_exponential fexp o o o l x x /\
  fmatern12 fexp o1 o2 o12 l x1 x2 <= fmatern12 fexp o o o l x x.
Proof.
  intros. split; [eapply fse_bounded|eapply fm12_bounded]; eassumption.
Qed.
Lemma not_bounded : exists x1 x2, (forall a, binary64 (x1 a) /\ binary64 (x2 a)) /\
  (forall x, fsquared_exponential (fun t => fl (exp t)) one one one 1 x x <= 1) /\
  1 < fsquared_exponential (fun t => fl (exp t)) one one one 1 x1 x2 /\
  forall x, fmatern12 (fun t => fl (exp t)) one one one 1 x x
            < fmatern12 (fun t => fl (exp t)) one one one 1 x1 x2.
Proof.
  exists (near 0), (near 1). split; [intros; split; apply near_binary64|].
  split; [intros; apply se_diag|]. split.
  - eapply Rlt_le_trans; [|apply (near_se 0 1 eq_refl)]. pose proof (bpow_gt_0 radix2 (-37)). lra.
  - intros x. eapply Rle_lt_trans; [apply (m12_diag one 1 x)|].
    eapply Rlt_le_trans; [|apply (near_m12 0 1 eq_refl)].
    assert (b (-50) < b (-22)) by (apply bpow_lt; lia). lra.
Qed.
Lemma not_gram : exists X : nat -> nat -> R, (forall i a, binary64 (X i a)) /\
  ~ psd 2 (fun i j => fsquared_exponential (fun t => fl (exp t)) one one one 1 (X i) (X j)) /\
  forall sigma, sigma ^ 2 <= bpow radix2 (-23) ->
  ~ psd 2 (fun i j => fmatern12 (fun t => fl (exp t)) one one one 1 (X i) (X j)
                      + (sigma ^ 2 + / 10 ^ 10) * eye i j).
Proof.
  exists near. split; [exact near_binary64|]. split; [exact se_gram_not_psd|exact m12_gram_not_psd].
Qed.
Lemma bijectors_in_range : forall lae, (forall x, 0 <= lae x) ->
  (forall x, 0 < fsoftplus lae x) /\
  (forall x minval, binary64 minval -> minval <= fsoftmin lae x minval) /\
  (forall x maxval, binary64 maxval -> fsoftmax lae x maxval <= maxval).
Proof.
  intros lae H. split; [|split].
  - intros x. eapply Rlt_le_trans; [exact fl_eps_pos|apply fsoftplus_lower, H].
  - intros x m Hm. apply fsoftmin_lower; [exact H|apply binary64_format, Hm].
  - intros x m Hm. apply fsoftmax_upper; [exact H|apply binary64_format, Hm].
Qed.
Lemma not_strict : exists x,
  1 < softmin x 1 /\ fsoftmin (fun t => fl (logaddexp t 0)) x 1 = 1 /\ forall t, 0 <= fl (logaddexp t 0).
Proof.
  exists (-63). split; [|split; [exact softmin_reaches|exact rlogaddexp0_nonneg]].
  unfold softmin, softplus.
  assert (0 < eps300) by (unfold eps300; apply Rinv_0_lt_compat, pow_lt; lra).
  assert (0 < logaddexp (-63 - 1) 0).
  { unfold logaddexp. rewrite exp_0, <- ln_1. apply ln_increasing; [lra|]. pose proof (exp_pos (-63 - 1)). lra. }
  lra.
Qed.
Lemma float_case : adds 1 one /\ (depth one <= 0)%nat /\
  distance_error 1 0 (fscale 1 (fun _ => 0)) (fscale 1 (fun _ => 1)) + unit_roundoff * / 10 ^ 12
    <= distance2 1 (fscale 1 (fun _ => 0)) (fscale 1 (fun _ => 1)) /\
  (forall a b, a <= b -> fl (exp a) <= fl (exp b)) /\ fl (exp 0) = 1.
Proof.
  split; [exact one_adds|]. split; [apply Nat.le_refl|]. split; [exact far_case|].
  split; [exact rexp_mono|exact rexp_0].
Qed.
