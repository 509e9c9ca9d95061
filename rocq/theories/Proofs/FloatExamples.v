(** Concrete points at which rounding breaks what holds for real numbers, and points at which it does not. *)
From Coq Require Import Reals List Permutation Lia Lra Psatz ZArith.
From Flocq Require Import Core.
From Verif Require Import Base.Sums Base.Mat Model.Distances Model.Bijectors Model.GPR Model.FloatDistances Spec.FloatSpec
  Proofs.FloatFacts.
Import ListNotations.
Open Scope R_scope.

Notation b := (bpow radix2).
Ltac zdec := solve [vm_compute; discriminate | vm_compute; reflexivity | split; vm_compute; (discriminate || reflexivity)].

(** * Two points near 256 which are 1e-6 apart *)
Definition near1 : nat -> R := fun _ => IZR (2 ^ 28 + 6) * b (-20).
Definition near2 : nat -> R := fun _ => IZR (2 ^ 28 + 7) * b (-20).
Definition near (i : nat) : nat -> R := match i with O => near1 | _ => near2 end.
Lemma one_adds : adds 1 one.
Proof. apply Permutation_refl. Qed.

Lemma sq20 : forall p q, (IZR p * b (-20)) * (IZR q * b (-20)) = IZR (p * q) * b (-40).
Proof. intros. rewrite mult_IZR. change (-40)%Z with (-20 + -20)%Z. rewrite bpow_plus. ring. Qed.
Lemma near_11 : fdot one near1 near1 = IZR (2 ^ 56 + 12 * 2 ^ 28 + 32) * b (-40).
Proof.
  unfold fdot, one, near1. cbn [fsum]. rewrite sq20.
  rewrite (fl_near _ _ 4 (2 ^ 52 + 12 * 2 ^ 24 + 2)); [|zdec..]. f_equal.
Qed.
Lemma near_22 : fdot one near2 near2 = IZR (2 ^ 56 + 14 * 2 ^ 28 + 48) * b (-40).
Proof.
  unfold fdot, one, near2. cbn [fsum]. rewrite sq20.
  rewrite (fl_near _ _ 4 (2 ^ 52 + 14 * 2 ^ 24 + 3)); [|zdec..]. f_equal.
Qed.
Lemma near_12 : fdot one near1 near2 = IZR (2 ^ 56 + 13 * 2 ^ 28 + 48) * b (-40).
Proof.
  unfold fdot, one, near1, near2. cbn [fsum]. rewrite sq20.
  rewrite (fl_near _ _ 4 (2 ^ 52 + 13 * 2 ^ 24 + 3)); [|zdec..]. f_equal.
Qed.
Lemma near_21 : fdot one near2 near1 = IZR (2 ^ 56 + 13 * 2 ^ 28 + 48) * b (-40).
Proof.
  rewrite <- near_12. unfold fdot. cbn. f_equal. ring.
Qed.
Lemma fjit_bounds : IZR 288230 * b (-58) <= fjit <= IZR 288231 * b (-58).
Proof.
  unfold fjit. rewrite <- (fl_int 288230 (-58)), <- (fl_int 288231 (-58)); [|zdec..].
  assert (E : jit12 = / IZR (10 ^ 12)).
  { unfold jit12. f_equal. change 12%Z with (Z.of_nat 12). rewrite <- pow_IZR. reflexivity. }
  change (b (-58)) with (/ IZR (2 ^ 58)). rewrite E.
  change (10 ^ 12)%Z with 1000000000000%Z. change (2 ^ 58)%Z with 288230376151711744%Z.
  split; apply fl_le; lra.
Qed.
Lemma lin40 : forall p q r, r = (p + q)%Z -> IZR p * b (-40) + IZR q * b (-40) = IZR r * b (-40).
Proof. intros p q r ->. rewrite plus_IZR. ring. Qed.
Lemma lin40m : forall p q r, r = (p - 2 * q)%Z -> IZR p * b (-40) - 2 * (IZR q * b (-40)) = IZR r * b (-40).
Proof. intros p q r ->. rewrite minus_IZR, mult_IZR. ring. Qed.
Lemma below_zero : forall t, t = IZR (-16) * b (-40) -> fl (t + fjit) <= - b (-37).
Proof.
  intros t ->. replace (- b (-37)) with (IZR (-8) * b (-40)).
  2: { change (-37)%Z with (3 + -40)%Z. rewrite bpow_plus. change (b 3) with 8. ring. }
  rewrite <- (fl_int (-8) (-40)); [|zdec..]. apply fl_le.
  pose proof (proj2 fjit_bounds) as H.
  assert (K : IZR 288231 * b (-58) <= IZR 8 * b (-40)).
  { change (-40)%Z with (18 + -58)%Z. rewrite bpow_plus. change (b 18) with (IZR (2 ^ 18)).
    change (2 ^ 18)%Z with 262144%Z. pose proof (bpow_gt_0 radix2 (-58)). lra. }
  lra.
Qed.
Lemma near_distance : fdistance2 one one one near1 near2 <= - b (-37).
Proof.
  unfold fdistance2. rewrite !square_prod, near_11, near_12, near_22.
  rewrite (fl_double (_ * _)) by (rewrite <- near_12; apply fdot_format).
  rewrite (lin40m _ _ (- (2 ^ 56) - 14 * 2 ^ 28 - 64)%Z) by reflexivity.
  rewrite (fl_near _ _ 4 (- (2 ^ 52) - 14 * 2 ^ 24 - 4)); [|zdec..].
  rewrite (lin40 _ _ (-16)%Z) by reflexivity.
  rewrite (fl_int (-16)); [|zdec..]. apply below_zero. reflexivity.
Qed.
Lemma near_distance' : fdistance2 one one one near2 near1 <= - b (-37).
Proof.
  unfold fdistance2. rewrite !square_prod, near_11, near_21, near_22.
  rewrite (fl_double (_ * _)) by (rewrite <- near_21; apply fdot_format).
  rewrite (lin40m _ _ (- (2 ^ 56) - 12 * 2 ^ 28 - 48)%Z) by reflexivity.
  rewrite (fl_near _ _ 4 (- (2 ^ 52) - 12 * 2 ^ 24 - 3)); [|zdec..].
  rewrite (lin40 _ _ (-16)%Z) by reflexivity.
  rewrite (fl_int (-16)); [|zdec..]. apply below_zero. reflexivity.
Qed.
Lemma near_binary64 : forall i a, binary64 (near i a).
Proof.
  intros i a. destruct i; [exists (2 ^ 28 + 6)%Z|exists (2 ^ 28 + 7)%Z]; exists (-20)%Z;
    (split; [reflexivity|]); split; zdec.
Qed.
Lemma fdist_ext : forall z1 z1' z2 z2', (forall a, z1 a = z1' a) -> (forall a, z2 a = z2' a) ->
  fdistance2 one one one z1 z2 = fdistance2 one one one z1' z2'.
Proof.
  intros z1 z1' z2 z2' H1 H2. unfold fdistance2, fsquares, fdot, one. cbn [fsum]. rewrite !H1, !H2. reflexivity.
Qed.
Lemma scale_one : forall x a, binary64 (x a) -> fscale 1 x a = x a.
Proof.
  intros x a H. unfold fscale. replace (x a / 1) with (x a) by field. apply fl_id, binary64_format, H.
Qed.

(** * The kernels at these points, with a correctly rounded exp *)
Definition rexp (x : R) : R := fl (exp x).
Lemma rexp_mono : forall a c, a <= c -> rexp a <= rexp c.
Proof.
  intros a c H. apply fl_le. destruct H as [H| ->]; [left; apply exp_increasing, H|right; reflexivity].
Qed.
Lemma fl_1 : fl 1 = 1.
Proof. replace 1 with (IZR 1 * b 0) by (simpl; ring). apply fl_int; zdec. Qed.
Lemma rexp_0 : rexp 0 = 1.
Proof. unfold rexp. rewrite exp_0. apply fl_1. Qed.
Lemma near_se : forall i j, (i + j = 1)%nat ->
  1 + b (-37) <= fsquared_exponential rexp one one one 1 (near i) (near j).
Proof.
  intros i j H. unfold fsquared_exponential.
  rewrite (fdist_ext _ (near i) _ (near j)) by (intros; apply scale_one, near_binary64).
  assert (D : fdistance2 one one one (near i) (near j) <= - b (-37)).
  { destruct i as [|[|i]]; [|destruct j; [|lia]|lia].
    - simpl in H. subst j. apply near_distance.
    - apply near_distance'. }
  replace (1 + b (-37)) with (IZR (2 ^ 37 + 1) * b (-37)).
  2: { rewrite plus_IZR. change (b (-37)) with (/ IZR (2 ^ 37)). field. apply not_0_IZR. discriminate. }
  rewrite <- (fl_int (2 ^ 37 + 1)); [|zdec..]. unfold rexp. apply fl_le.
  pose proof (exp_ineq1_le (- fdistance2 one one one (near i) (near j))).
  replace (IZR (2 ^ 37 + 1) * b (-37)) with (1 + b (-37)); [lra|].
  rewrite plus_IZR. change (b (-37)) with (/ IZR (2 ^ 37)). field. apply not_0_IZR. discriminate.
Qed.
Lemma se_diag : forall o l x, fsquared_exponential rexp o o o l x x <= 1.
Proof.
  intros. unfold fsquared_exponential. rewrite fdistance2_self, <- rexp_0. apply rexp_mono.
  pose proof (proj1 fjit_bounds). pose proof (bpow_gt_0 radix2 (-58)). lra.
Qed.
Lemma tiny_sqrt : fl (sqrt (fl (/ 10 ^ 36))) <= b (-50).
Proof.
  assert (F : forall k, (-1074 <= k)%Z -> fl (b k) = b k).
  { intros. apply fl_id, generic_format_bpow. unfold FLT_exp. lia. }
  rewrite <- (F (-50)%Z) by lia. apply fl_le.
  rewrite <- (sqrt_square (b (-50))) by apply bpow_ge_0. apply sqrt_le_1_alt.
  rewrite <- bpow_plus. rewrite <- F by lia. apply fl_le.
  change (b (-50 + -50)) with (/ IZR (2 ^ 100)).
  replace (/ 10 ^ 36) with (/ IZR (10 ^ 36)).
  2: { f_equal. change 36%Z with (Z.of_nat 36). rewrite <- pow_IZR. reflexivity. }
  apply Rinv_le_contravar; [apply IZR_lt; reflexivity|apply IZR_le; zdec].
Qed.
Lemma near_m12 : forall i j, (i + j = 1)%nat ->
  1 - b (-50) <= fmatern12 rexp one one one 1 (near i) (near j).
Proof.
  intros i j H. unfold fmatern12.
  rewrite (fdist_ext _ (near i) _ (near j)) by (intros; apply scale_one, near_binary64).
  assert (D : fdistance2 one one one (near i) (near j) <= - b (-37)).
  { destruct i as [|[|i]]; [|destruct j; [|lia]|lia].
    - simpl in H. subst j. apply near_distance.
    - apply near_distance'. }
  assert (P : 0 <= fl (/ 10 ^ 36)).
  { rewrite <- fl_0. apply fl_le. left. apply Rinv_0_lt_compat, pow_lt. lra. }
  rewrite Rmax_right by (pose proof (bpow_gt_0 radix2 (-37)); lra).
  pose proof tiny_sqrt as T.
  assert (E : 1 - b (-50) = IZR (2 ^ 50 - 1) * b (-50)).
  { rewrite minus_IZR. change (b (-50)) with (/ IZR (2 ^ 50)). field. apply not_0_IZR. discriminate. }
  rewrite E, <- (fl_int (2 ^ 50 - 1)), <- E; [|zdec..]. unfold rexp. apply fl_le.
  pose proof (exp_ineq1_le (- fl (sqrt (fl (/ 10 ^ 36))))). lra.
Qed.
Lemma m12_diag : forall o l x, fmatern12 rexp o o o l x x <= 1 - b (-22).
Proof.
  intros. unfold fmatern12. rewrite fdistance2_self.
  assert (F : forall k, (-1074 <= k)%Z -> fl (b k) = b k).
  { intros. apply fl_id, generic_format_bpow. unfold FLT_exp. lia. }
  assert (D : b (-20) <= fl (sqrt (Rmax fjit (fl (/ 10 ^ 36))))).
  { rewrite <- (F (-20)%Z) by lia. apply fl_le.
    rewrite <- (sqrt_square (b (-20))) by apply bpow_ge_0. apply sqrt_le_1_alt.
    rewrite <- bpow_plus. eapply Rle_trans; [|apply Rmax_l].
    eapply Rle_trans; [|apply fjit_bounds].
    change (-20 + -20)%Z with (18 + -58)%Z. rewrite bpow_plus. apply Rmult_le_compat_r; [apply bpow_ge_0|].
    change (b 18) with (IZR (2 ^ 18)). apply IZR_le. zdec. }
  set (d := fl (sqrt _)) in *.
  assert (E : 1 - b (-22) = IZR (2 ^ 22 - 1) * b (-22)).
  { rewrite minus_IZR. change (b (-22)) with (/ IZR (2 ^ 22)). field. apply not_0_IZR. discriminate. }
  rewrite E, <- (fl_int (2 ^ 22 - 1)), <- E; [|zdec..]. unfold rexp. apply fl_le.
  eapply Rle_trans with (exp (- b (-20))).
  { destruct D as [D| ->]; [left; apply exp_increasing; lra|right; reflexivity]. }
  rewrite exp_Ropp.
  pose proof (exp_ineq1_le (b (-20))) as X.
  assert (B : b (-20) = / 1048576) by reflexivity. assert (C : b (-22) = / 4194304) by reflexivity.
  rewrite B in *. rewrite C.
  apply Rle_trans with (/ (1 + / 1048576)).
  - apply Rinv_le_contravar; lra.
  - apply Rmult_le_reg_r with (1 + / 1048576); [lra|]. rewrite Rinv_l by lra. lra.
Qed.

(** * The Gram matrices of the two points *)
Lemma not_psd2 : forall M : Mat, M 0%nat 0%nat + M 1%nat 1%nat < M 0%nat 1%nat + M 1%nat 0%nat -> ~ psd 2 M.
Proof.
  intros M H P. specialize (P (fun i => match i with O => 1 | _ => -1 end)).
  unfold qf in P. cbn in P. lra.
Qed.
Lemma se_gram_not_psd :
  ~ psd 2 (fun i j => fsquared_exponential rexp one one one 1 (near i) (near j)).
Proof.
  apply not_psd2. pose proof (near_se 0 1 eq_refl). pose proof (near_se 1 0 eq_refl).
  pose proof (se_diag one 1 (near 0)). pose proof (se_diag one 1 (near 1)).
  pose proof (bpow_gt_0 radix2 (-37)). lra.
Qed.
Lemma m12_gram_not_psd : forall sigma, sigma ^ 2 <= b (-23) ->
  ~ psd 2 (fun i j => fmatern12 rexp one one one 1 (near i) (near j) + (sigma ^ 2 + jit10) * eye i j).
Proof.
  intros sigma S. apply not_psd2.
  pose proof (near_m12 0 1 eq_refl). pose proof (near_m12 1 0 eq_refl).
  pose proof (m12_diag one 1 (near 0)). pose proof (m12_diag one 1 (near 1)).
  assert (J : jit10 <= b (-33)).
  { unfold jit10. replace (/ 10 ^ 10) with (/ IZR (10 ^ 10)).
    2: { f_equal. change 10%Z with (Z.of_nat 10) at 2. rewrite <- pow_IZR. reflexivity. }
    change (b (-33)) with (/ IZR (2 ^ 33)). apply Rinv_le_contravar; [apply IZR_lt; reflexivity|apply IZR_le; zdec]. }
  assert (B1 : b (-22) = / 4194304) by reflexivity. assert (B2 : b (-23) = / 8388608) by reflexivity.
  assert (B3 : b (-33) = / 8589934592) by reflexivity.
  assert (B4 : b (-50) = / 1125899906842624) by reflexivity.
  rewrite B1, B2, B3, B4 in *. unfold eye, delta. simpl Nat.eqb. cbn iota. lra.
Qed.

(** * A distance that depends on which point comes first *)
Definition skew1 : nat -> R := fun _ => IZR 5 * b (-29).
Definition skew2 : nat -> R := fun _ => IZR (2 ^ 29 + 1) * b (-29).
Lemma skew_binary64 : forall a, binary64 (skew1 a) /\ binary64 (skew2 a).
Proof.
  intros a. split; [exists 5%Z|exists (2 ^ 29 + 1)%Z]; exists (-29)%Z; (split; [reflexivity|]); split; zdec.
Qed.
Lemma sq29 : forall p q, (IZR p * b (-29)) * (IZR q * b (-29)) = IZR (p * q) * b (-58).
Proof. intros. rewrite mult_IZR. change (-58)%Z with (-29 + -29)%Z. rewrite bpow_plus. ring. Qed.
Lemma lin58 : forall p q r, r = (p + q)%Z -> IZR p * b (-58) + IZR q * b (-58) = IZR r * b (-58).
Proof. intros p q r ->. rewrite plus_IZR. ring. Qed.
Lemma lin58m : forall p q r, r = (p - 2 * q)%Z -> IZR p * b (-58) - 2 * (IZR q * b (-58)) = IZR r * b (-58).
Proof. intros p q r ->. rewrite minus_IZR, mult_IZR. ring. Qed.
Lemma skew_11 : fdot one skew1 skew1 = IZR 25 * b (-58).
Proof. unfold fdot, one, skew1. cbn [fsum]. rewrite sq29. apply fl_int; zdec. Qed.
Lemma skew_12 : fdot one skew1 skew2 = IZR (5 * 2 ^ 29 + 5) * b (-58).
Proof. unfold fdot, one, skew1, skew2. cbn [fsum]. rewrite sq29. apply fl_int; zdec. Qed.
Lemma skew_21 : fdot one skew2 skew1 = IZR (5 * 2 ^ 29 + 5) * b (-58).
Proof. unfold fdot, one, skew1, skew2. cbn [fsum]. rewrite sq29. apply fl_int; zdec. Qed.
Lemma skew_22 : fdot one skew2 skew2 = IZR (2 ^ 58 + 2 ^ 30) * b (-58).
Proof.
  unfold fdot, one, skew2. cbn [fsum]. rewrite sq29.
  rewrite (fl_near _ _ 6 (2 ^ 52 + 2 ^ 24)); [|zdec..]. f_equal.
Qed.
Lemma skew_distance : fdistance2 one one one skew1 skew2 < fdistance2 one one one skew2 skew1.
Proof.
  unfold fdistance2. rewrite !square_prod, skew_11, skew_12, skew_21, skew_22.
  rewrite (fl_double (_ * _)) by (rewrite <- skew_12; apply fdot_format).
  rewrite (lin58m 25 _ (15 - 10 * 2 ^ 29)%Z) by reflexivity.
  rewrite (lin58m (2 ^ 58 + 2 ^ 30) _ (2 ^ 58 - 2 ^ 32 - 10)%Z) by reflexivity.
  rewrite (fl_int (15 - 10 * 2 ^ 29)); [|zdec..].
  rewrite (fl_near (2 ^ 58 - 2 ^ 32 - 10) _ 5 (2 ^ 53 - 2 ^ 27)); [|zdec..].
  rewrite (lin58 (15 - 10 * 2 ^ 29) _ (2 ^ 58 - 2 ^ 32 + 15)%Z) by reflexivity.
  rewrite (lin58 ((2 ^ 53 - 2 ^ 27) * 2 ^ 5) _ (2 ^ 58 - 2 ^ 32 + 25)%Z) by reflexivity.
  rewrite (fl_near (2 ^ 58 - 2 ^ 32 + 15) _ 5 (2 ^ 53 - 2 ^ 27)); [|zdec..].
  rewrite (fl_near (2 ^ 58 - 2 ^ 32 + 25) _ 5 (2 ^ 53 - 2 ^ 27 + 1)); [|zdec..].
  destruct fjit_bounds as [J1 J2].
  apply Rle_lt_trans with (IZR ((2 ^ 53 - 2 ^ 27 + 9007) * 2 ^ 5) * b (-58)).
  - rewrite <- (fl_near (2 ^ 58 - 2 ^ 32 + 288231) (-58) 5 (2 ^ 53 - 2 ^ 27 + 9007)); [|zdec..].
    apply fl_le. rewrite <- (lin58 ((2 ^ 53 - 2 ^ 27) * 2 ^ 5) 288231 (2 ^ 58 - 2 ^ 32 + 288231)) by reflexivity. lra.
  - apply Rlt_le_trans with (IZR ((2 ^ 53 - 2 ^ 27 + 9008) * 2 ^ 5) * b (-58)).
    + apply Rmult_lt_compat_r; [apply bpow_gt_0|apply IZR_lt; zdec].
    + rewrite <- (fl_near (2 ^ 58 - 2 ^ 32 + 32 + 288230) (-58) 5 (2 ^ 53 - 2 ^ 27 + 9008)); [|zdec..].
      apply fl_le. rewrite <- (lin58 ((2 ^ 53 - 2 ^ 27 + 1) * 2 ^ 5) 288230 (2 ^ 58 - 2 ^ 32 + 32 + 288230)) by reflexivity. lra.
Qed.

(** * Points that are far apart *)
Definition far1 : nat -> R := fun _ => 0.
Definition far2 : nat -> R := fun _ => 1.
Lemma far_case : distance_error 1 0 (fscale 1 far1) (fscale 1 far2) + unit_roundoff * jit12
  <= distance2 1 (fscale 1 far1) (fscale 1 far2).
Proof.
  assert (F1 : forall a, fscale 1 far1 a = 0) by (intros; unfold fscale, far1; replace (0 / 1) with 0 by field; apply fl_0).
  assert (F2 : forall a, fscale 1 far2 a = 1).
  { intros. unfold fscale, far2. replace (1 / 1) with 1 by field. apply fl_1. }
  unfold distance_error, distance2, norm2, sum. simpl nat_rect || idtac.
  cbn. rewrite !F1, !F2.
  assert (U : unit_roundoff <= / 1024) by (rewrite u_val; lra). pose proof u_pos as U0.
  assert (V : underflow <= / 1024).
  { unfold underflow. apply Rle_trans with (/ 2 * b (-10)).
    - apply Rmult_le_compat_l; [lra|apply bpow_le; lia].
    - change (b (-10)) with (/ 1024). lra. }
  pose proof eta_pos as V0.
  assert (J : jit12 <= / 1024) by (unfold jit12; apply Rinv_le_contravar; lra).
  pose proof jit12_pos as J0.
  set (u := unit_roundoff) in *. set (h := underflow) in *. set (j := jit12) in *.
  assert (W : 1 + u <= 1025 / 1024) by lra.
  assert (W2 : (1 + u) * (1 + u) <= 101 / 100).
  { apply Rle_trans with (1025 / 1024 * (1025 / 1024)); [apply Rmult_le_compat; lra|lra]. }
  assert (W4 : (1 + u) * (1 + u) * ((1 + u) * (1 + u)) <= 103 / 100).
  { apply Rle_trans with (101 / 100 * (101 / 100)); [apply Rmult_le_compat; try lra; apply Rmult_le_pos; lra|lra]. }
  assert (W3 : (1 + u) * ((1 + u) * (1 + u)) <= 103 / 100).
  { apply Rle_trans with (1025 / 1024 * (101 / 100)); [apply Rmult_le_compat; try lra; apply Rmult_le_pos; lra|lra]. }
  assert (T1 : ((1 + u) * (1 + u) * ((1 + u) * (1 + u)) - 1) * (2 + j) <= 3 / 100 * 3).
  { apply Rle_trans with (3 / 100 * (2 + j)); [apply Rmult_le_compat_r; lra|lra]. }
  assert (T2 : (1 + u) * ((1 + u) * (1 + u)) * h <= 103 / 100 * (/ 1024)).
  { apply Rmult_le_compat; try lra. apply Rmult_le_pos; [lra|apply Rmult_le_pos; lra]. }
  assert (T3 : u * j <= / 1024 * 1).
  { apply Rmult_le_compat; lra. }
  nra.
Qed.

(** * A bijector that reaches its bound *)
Definition rlogaddexp0 (x : R) : R := fl (logaddexp x 0).
Lemma rlogaddexp0_nonneg : forall x, 0 <= rlogaddexp0 x.
Proof.
  intros. unfold rlogaddexp0. rewrite <- fl_0 at 1. apply fl_le. unfold logaddexp. rewrite exp_0.
  rewrite <- ln_1. destruct (Req_dec (exp x) 0); [pose proof (exp_pos x); lra|].
  left. apply ln_increasing; pose proof (exp_pos x); lra.
Qed.
Lemma exp_64 : exp (-64) <= b (-64).
Proof.
  assert (E : forall n, 2 ^ n <= exp (INR n)).
  { induction n; [simpl; rewrite exp_0; lra|].
    rewrite S_INR, exp_plus. simpl. pose proof (exp_ineq1_le 1). pose proof (pow_lt 2 n).
    rewrite Rmult_comm. apply Rmult_le_compat; lra. }
  specialize (E 64%nat). replace (INR 64) with 64 in E by (simpl; lra).
  replace (-64) with (Ropp 64) by lra. rewrite exp_Ropp. change (b (-64)) with (/ IZR (2 ^ 64)). apply Rinv_le_contravar; [apply IZR_lt; reflexivity|].
  eapply Rle_trans; [|exact E]. right. change 64%Z with (Z.of_nat 64). rewrite <- pow_IZR. reflexivity.
Qed.
Lemma softplus_64 : fsoftplus rlogaddexp0 (-64) <= b (-60).
Proof.
  assert (F : forall k, (-1074 <= k)%Z -> fl (b k) = b k).
  { intros. apply fl_id, generic_format_bpow. unfold FLT_exp. lia. }
  assert (L : rlogaddexp0 (-64) <= b (-64)).
  { unfold rlogaddexp0. rewrite <- F by lia. apply fl_le. unfold logaddexp. rewrite exp_0.
    eapply Rle_trans; [|exact exp_64].
    rewrite <- (ln_exp (exp (-64))) at 2. pose proof (exp_pos (-64)). pose proof (exp_ineq1_le (exp (-64))) as [H0|H0].
    - left. apply ln_increasing; lra.
    - right. f_equal. lra. }
  assert (G : fl eps300 <= b (-64)).
  { rewrite <- F by lia. apply fl_le. unfold eps300. replace (/ 10 ^ 300) with (/ IZR (10 ^ 300)).
    2: { f_equal. change 300%Z with (Z.of_nat 300). rewrite <- pow_IZR. reflexivity. }
    change (b (-64)) with (/ IZR (2 ^ 64)). apply Rinv_le_contravar; [apply IZR_lt; reflexivity|apply IZR_le; zdec]. }
  unfold fsoftplus. rewrite <- F by lia. apply fl_le.
  change (-60)%Z with (4 + -64)%Z. rewrite bpow_plus. change (b 4) with 16.
  pose proof (bpow_gt_0 radix2 (-64)). lra.
Qed.
Lemma binary64_1 : binary64 1.
Proof. exists 1%Z, 0%Z. split; [simpl; ring|]. split; zdec. Qed.
Lemma softmin_reaches : fsoftmin rlogaddexp0 (-63) 1 = 1.
Proof.
  apply Rle_antisym.
  2: { apply fsoftmin_lower; [apply rlogaddexp0_nonneg|apply binary64_format, binary64_1]. }
  unfold fsoftmin. replace (-63 - 1) with (IZR (-64) * b 0) by (simpl; ring).
  rewrite (fl_int (-64)); [|zdec..]. replace (IZR (-64) * b 0) with (-64) by (simpl; ring).
  assert (E : 1 = IZR (2 ^ 52 * 2 ^ 8) * b (-60)).
  { change (b (-60)) with (/ IZR (2 ^ 60)). change (2 ^ 52 * 2 ^ 8)%Z with (2 ^ 60)%Z. rewrite Rinv_r; [reflexivity|].
    apply not_0_IZR. discriminate. }
  rewrite E at 2. rewrite <- (fl_near (2 ^ 60 + 1) (-60) 8 (2 ^ 52)); [|zdec..].
  apply fl_le. pose proof softplus_64. rewrite plus_IZR, Rmult_plus_distr_r.
  change (2 ^ 60)%Z with (2 ^ 52 * 2 ^ 8)%Z. rewrite <- E. lra.
Qed.
