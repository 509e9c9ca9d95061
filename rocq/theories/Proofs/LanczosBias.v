(** Fewer Lanczos steps than eigenvalues: the estimate of the log-determinant is not below. *)
From Coq Require Import Reals Arith Lia Lra List FunctionalExtensionality.
From Coquelicot Require Import Coquelicot.
From Verif Require Import Base.Sums Base.Mat Base.PSD Model.Arrays Model.Lanczos Spec.LanczosSpec Spec.Det Proofs.DetFacts Proofs.LanczosFacts Proofs.LanczosQuad Proofs.LanczosLogdet.
Import ListNotations.
Open Scope R_scope.

(** ** polynomials given by their roots *)
Fixpoint roots (zs : list R) (x : R) : R := match zs with [] => 1 | z :: r => (x - z) * roots r x end.
Lemma roots_app : forall a b x, roots (a ++ b) x = roots a x * roots b x.
Proof. induction a; intros; cbn; [ring|]. rewrite IHa. ring. Qed.
Lemma roots_in : forall zs x, In x zs -> roots zs x = 0.
Proof. induction zs; intros x H; [destruct H|]. cbn. destruct H as [->|H]; [ring|]. rewrite IHzs by auto. ring. Qed.
Lemma roots_pos : forall zs x, (forall z, In z zs -> x < z) -> roots zs x <> 0.
Proof.
  induction zs as [|z zs IH]; intros x H; cbn; [lra|]. apply Rmult_integral_contrapositive_currified.
  - specialize (H z (or_introl eq_refl)). lra.
  - apply IH. intros. apply H. now right.
Qed.
Lemma peval_shift : forall L p x z, (forall k, (L <= k)%nat -> p k = 0) ->
  peval (S L) (fun k => (match k with O => 0 | S j => p j end) - z * p k) x = (x - z) * peval L p x.
Proof.
  intros L p x z H. unfold peval. rewrite (sum_ext (S L) _ (fun k => (match k with O => 0 | S j => p j end) * x ^ k + (- z) * (p k * x ^ k))) by (intros; ring).
  rewrite sum_plus, sum_scal_l. rewrite sum_S_l. cbn [pow]. rewrite (sum_ext L _ (fun i => x * (p i * x ^ i))) by (intros; cbn [pow]; ring).
  rewrite sum_scal_l. cbn [sum]. rewrite (H L (le_n _)). ring.
Qed.
Lemma roots_peval : forall zs, exists p : Vec, (forall k, (S (length zs) <= k)%nat -> p k = 0) /\ forall x, roots zs x = peval (S (length zs)) p x.
Proof.
  induction zs as [|z zs [p [H0 H]]].
  - exists (fun k => match k with O => 1 | _ => 0 end). split; [intros [|k] Hk; [cbn in Hk; lia|reflexivity]|]. intro x. unfold peval. cbn. ring.
  - exists (fun k => (match k with O => 0 | S j => p j end) - z * p k). split.
    + intros [|k] Hk; [cbn in Hk; lia|]. cbn [length] in Hk. rewrite !H0 by lia. ring.
    + intro x. cbn [roots length]. rewrite H. rewrite peval_shift by auto. reflexivity.
Qed.
Lemma peval_plus : forall L p q x, peval L (fun k => p k + q k) x = peval L p x + peval L q x.
Proof. intros. unfold peval. rewrite <- sum_plus. apply sum_ext. intros; ring. Qed.
Lemma peval_scal : forall L c p x, peval L (fun k => c * p k) x = c * peval L p x.
Proof. intros. unfold peval. rewrite <- sum_scal_l. apply sum_ext. intros; ring. Qed.
(** division of p(x) - p(s) by x - s *)
Lemma roots_div : forall zs s, exists q : Vec, forall x, roots zs x - roots zs s = (x - s) * peval (length zs) q x.
Proof.
  induction zs as [|z zs IH]; intro s.
  - exists (fun _ => 0). intro x. unfold peval. cbn. ring.
  - destruct (IH s) as [q Hq]. destruct (roots_peval zs) as [p [_ Hp]].
    exists (fun k => p k + (s - z) * (if Nat.ltb k (length zs) then q k else 0)). intro x. cbn [roots length].
    rewrite peval_plus, peval_scal, peval_more by lia. rewrite <- Hp.
    replace ((x - z) * roots zs x - (s - z) * roots zs s) with ((x - s) * roots zs x + (s - z) * (roots zs x - roots zs s)) by ring.
    rewrite Hq. ring.
Qed.

(** ** two measures with the same first moments *)
Section Measures.
  Context (N M : nat) (w x u y : Vec).
  Hypothesis HM : forall k, (k < 2 * N)%nat -> sum N (fun i => w i * x i ^ k) = sum M (fun i => u i * y i ^ k).
  Hypothesis Hw : forall i, (i < N)%nat -> 0 <= w i.
  Hypothesis Hu : forall i, (i < M)%nat -> 0 <= u i.
  Hypothesis Hx : forall i, (i < N)%nat -> 0 < x i.
  Hypothesis Hy : forall i, (i < M)%nat -> 0 < y i.
  Hypothesis HN : (0 < N)%nat.
  Lemma same_poly : forall L q, (L <= 2 * N)%nat -> sum N (fun i => w i * peval L q (x i)) = sum M (fun i => u i * peval L q (y i)).
  Proof.
    intros L q HL. unfold peval.
    transitivity (sum L (fun k => q k * sum N (fun i => w i * x i ^ k))).
    - rewrite (sum_ext N _ (fun i => sum L (fun k => q k * (w i * x i ^ k)))) by (intros; rewrite <- sum_scal_l; apply sum_ext; intros; ring).
      rewrite sum_swap. apply sum_ext. intros. now rewrite sum_scal_l.
    - symmetry. rewrite (sum_ext M _ (fun i => sum L (fun k => q k * (u i * y i ^ k)))) by (intros; rewrite <- sum_scal_l; apply sum_ext; intros; ring).
      rewrite sum_swap. apply sum_ext. intros k Hk. rewrite sum_scal_l. now rewrite HM by lia.
  Qed.
  Lemma inverse_le : forall t, 0 <= t -> sum N (fun i => w i / (x i + t)) <= sum M (fun i => u i / (y i + t)).
  Proof.
    intros t Ht. set (zs := values N x). assert (LZ : length (zs ++ zs) = (2 * N)%nat) by (rewrite app_length; unfold zs; rewrite values_length; lia).
    destruct (roots_div (zs ++ zs) (- t)) as [q Hq]. rewrite LZ in Hq. set (c := roots (zs ++ zs) (- t)) in *.
    assert (IN : forall z, In z zs -> 0 < z).
    { assert (G : forall n, (n <= N)%nat -> forall z, In z (values n x) -> 0 < z); [|intros z Hz; exact (G N (le_n _) z Hz)].
      induction n; intros Hn z Hz; [destruct Hz|]. cbn in Hz. destruct Hz as [<-|Hz]; [apply Hx; lia|apply IHn; [lia|auto]]. }
    assert (Hc : 0 < c).
    { unfold c. rewrite roots_app. assert (roots zs (- t) <> 0) by (apply roots_pos; intros z Hz; specialize (IN z Hz); lra). nra. }
    assert (X : sum N (fun i => w i / (x i + t)) = - / c * sum N (fun i => w i * peval (2 * N) q (x i))).
    { rewrite <- sum_scal_l. apply sum_ext. intros i Hi. specialize (Hq (x i)). rewrite (roots_in (zs ++ zs) (x i)) in Hq.
      - specialize (Hx i Hi). set (v := peval (2 * N) q (x i)) in *. assert (E : v = - c / (x i + t)) by (replace c with (- ((x i - - t) * v)) by lra; field; lra).
        rewrite E. field. lra.
      - apply in_or_app. left. now apply values_in. }
    rewrite X, same_poly by lia. rewrite <- sum_scal_l. apply sum_le. intros i Hi. specialize (Hq (y i)). specialize (Hy i Hi). specialize (Hu i Hi).
    set (v := peval (2 * N) q (y i)) in *. rewrite roots_app in Hq. set (r := roots zs (y i)) in *.
    assert (E : v = (r * r - c) / (y i + t)) by (rewrite Hq; field; lra). rewrite E.
    assert (0 <= u i * (r * r) / (c * (y i + t))).
    { apply Rmult_le_pos; [apply Rmult_le_pos; [auto|nra]|]. left. apply Rinv_0_lt_compat. nra. }
    apply Rminus_le. replace (- / c * (u i * ((r * r - c) / (y i + t))) - u i / (y i + t)) with (- (u i * (r * r) / (c * (y i + t)))); [lra|]. field. lra.
  Qed.
  Let D (t : R) : R := sum N (fun i => w i * ln (x i + t)) - sum M (fun i => u i * ln (y i + t)).
  Lemma is_derive_lnsum : forall K (v z : Vec) t, (forall i, (i < K)%nat -> 0 < z i + t) ->
    is_derive (fun t => sum K (fun i => v i * ln (z i + t))) t (sum K (fun i => v i / (z i + t))).
  Proof.
    induction K; intros v z t H; cbn [sum].
    - apply is_derive_Reals. apply derivable_pt_lim_const.
    - apply (is_derive_plus (fun t => sum K (fun i => v i * ln (z i + t))) (fun t => v K * ln (z K + t))); [apply IHK; intros; apply H; lia|].
      specialize (H K (Nat.lt_succ_diag_r _)). auto_derive; [lra|]. field. lra.
  Qed.
  Lemma D_derive : forall t, 0 <= t -> is_derive D t (sum N (fun i => w i / (x i + t)) - sum M (fun i => u i / (y i + t))).
  Proof.
    intros t Ht. apply (is_derive_minus (fun t => sum N (fun i => w i * ln (x i + t))) (fun t => sum M (fun i => u i * ln (y i + t)))); apply is_derive_lnsum.
    - intros i Hi. specialize (Hx i Hi). lra. - intros i Hi. specialize (Hy i Hi). lra.
  Qed.
  Lemma D_decr : forall t, 0 < t -> D t <= D 0.
  Proof.
    intros t Ht. destruct (MVT_gen D 0 t (fun t => sum N (fun i => w i / (x i + t)) - sum M (fun i => u i / (y i + t)))) as [c [Hc E]].
    - intros z Hz. apply D_derive. rewrite Rmin_left in Hz by lra. lra.
    - intros z Hz. rewrite Rmin_left in Hz by lra. apply continuity_pt_filterlim. apply (ex_derive_continuous D). eexists. apply D_derive. lra.
    - rewrite Rmin_left in Hc by lra. pose proof (inverse_le c (proj1 Hc)). nra.
  Qed.
  Lemma D_tail : forall t, 0 < t -> - (sum M (fun i => u i * y i) / t) <= D t.
  Proof.
    intros t Ht. unfold D.
    assert (LX : forall z, 0 < z -> ln (z + t) = ln t + ln (1 + z / t)).
    { intros z Hz. rewrite <- ln_mult; [f_equal; field; lra|lra|]. assert (0 < z / t) by (apply Rdiv_lt_0_compat; lra). lra. }
    assert (M0 : sum N w = sum M u).
    { pose proof (HM 0%nat ltac:(lia)) as E. rewrite (sum_ext N _ w) in E by (intros; cbn; ring). rewrite (sum_ext M _ u) in E by (intros; cbn; ring). exact E. }
    assert (A : sum N w * ln t <= sum N (fun i => w i * ln (x i + t))).
    { rewrite <- sum_scal_r. apply sum_le. intros i Hi. specialize (Hw i Hi). specialize (Hx i Hi). apply Rmult_le_compat_l; auto. left. apply ln_increasing; lra. }
    assert (B : sum M (fun i => u i * ln (y i + t)) <= sum M u * ln t + sum M (fun i => u i * y i) / t).
    { rewrite <- sum_scal_r. unfold Rdiv. rewrite <- sum_scal_r, <- sum_plus. apply sum_le. intros i Hi. specialize (Hu i Hi). specialize (Hy i Hi). rewrite LX by auto.
      assert (0 < y i / t) by (apply Rdiv_lt_0_compat; lra).
      assert (ln (1 + y i / t) <= y i / t).
      { rewrite <- (ln_exp (y i / t)) at 2. apply Rcomplements.ln_le; [lra|]. left. apply exp_ineq1. lra. }
      unfold Rdiv in *. nra. }
    rewrite M0 in A. lra.
  Qed.
  Lemma log_ge : sum M (fun i => u i * ln (y i)) <= sum N (fun i => w i * ln (x i)).
  Proof.
    apply Rminus_le_0. set (S := sum M (fun i => u i * y i)).
    assert (E0 : D 0 = sum N (fun i => w i * ln (x i)) - sum M (fun i => u i * ln (y i))).
    { unfold D. apply f_equal2; apply sum_ext; intros; now rewrite Rplus_0_r. }
    rewrite <- E0. assert (HS : 0 <= S) by (apply sum_nonneg; intros i Hi; apply Rmult_le_pos; [auto|left; auto]).
    destruct (Rle_lt_dec 0 (D 0)) as [|G]; [auto|]. exfalso.
    set (t := (S + 1) / - D 0). assert (Ht : 0 < t) by (apply Rdiv_lt_0_compat; lra).
    pose proof (D_decr t Ht). pose proof (D_tail t Ht) as T. fold S in T.
    assert (S / t < - D 0).
    { apply (Rmult_lt_reg_r t); auto. unfold Rdiv. rewrite Rmult_assoc, Rinv_l, Rmult_1_r by lra. unfold t. replace (- D 0 * ((S + 1) / - D 0)) with (S + 1) by (field; lra). lra. }
    lra.
  Qed.
End Measures.

Lemma sign_mean_le : forall n F G, (forall s, is_sign n s -> F s <= G s) -> sign_mean n F <= sign_mean n G.
Proof.
  induction n; intros F G H; cbn; [apply H; intros i Hi; lia|].
  assert (sign_mean n (fun s => F (upd s n 1)) <= sign_mean n (fun s => G (upd s n 1))).
  { apply IHn. intros s Hs. apply H. intros i Hi. unfold upd. destruct (Nat.eqb_spec i n); auto. apply Hs; lia. }
  assert (sign_mean n (fun s => F (upd s n (-1))) <= sign_mean n (fun s => G (upd s n (-1)))).
  { apply IHn. intros s Hs. apply H. intros i Hi. unfold upd. destruct (Nat.eqb_spec i n); auto. apply Hs; lia. }
  lra.
Qed.
Lemma probe_mean_le : forall p n F G, (forall M, (forall b, (b < p)%nat -> is_sign n (fun i => M i b)) -> F M <= G M) -> probe_mean p n F <= probe_mean p n G.
Proof.
  induction p; intros n F G H; cbn; [apply H; lia|]. apply IHp. intros M HM. apply sign_mean_le. intros s Hs. apply H. intros b Hb.
  destruct (Nat.eqb_spec b p) as [->|D]; [exact Hs|]. apply HM. lia.
Qed.

Section Over.
  Context (n m : nat) (A : Mat) (matvec : Vec -> Vec) (draw : nat -> Vec) (eigh : nat -> Mat -> Vec * Mat) (a : Vec) (P : Mat).
  Hypothesis MV : forall z i, (i < n)%nat -> matvec z i = mv n A z i.
  Hypothesis Hn : (0 < n)%nat.
  Hypothesis Hm : (0 < m)%nat.
  Hypothesis EA : eigen n A a P.
  Hypothesis LO : forall k, (k < n)%nat -> / 10 ^ 36 <= a k.
  Lemma one_probe_over : forall s, is_sign n s -> probe_ok n m matvec draw eigh s ->
    let T := fst (lanczos_tridiagonal matvec m n (fun i => s i / sqrt (INR n)) draw) in
    spectral n a P ln s / INR n <= sum m (fun i => snd (eigh m T) 0%nat i ^ 2 * ln (Rmax (fst (eigh m T) i) (/ 10 ^ 36))).
  Proof.
    intros s Hs OK. cbv zeta. unfold probe_ok in OK. cbv zeta in OK. set (v1 := fun i => s i / sqrt (INR n)) in *.
    destruct (lanczos_tridiagonal matvec m n v1 draw) as [T V] eqn:E. cbn [fst snd] in *. destruct OK as [R [NT EG]].
    assert (U : dot n v1 v1 = 1).
    { unfold v1. apply vnorm_div; [symmetry; now apply sign_norm|now apply sqrt_n]. }
    assert (S := eigen_sym n A a P EA).
    assert (LO1 : 0 < / 10 ^ 36) by (apply Rinv_0_lt_compat, pow_lt; lra).
    assert (RL := ritz_lower n m A matvec v1 draw T V (fst (eigh m T)) (snd (eigh m T)) S MV U Hm E R NT EG (/ 10 ^ 36) (eigen_lower n A a P _ EA LO)).
    rewrite (sum_ext m _ (fun i => snd (eigh m T) 0%nat i ^ 2 * ln (fst (eigh m T) i))).
    2:{ intros i Hi. rewrite Rmax_left; [reflexivity|]. now apply RL. }
    replace (spectral n a P ln s / INR n) with (spectral n a P ln v1).
    2:{ unfold v1. rewrite spectral_scal. rewrite pow2_sqrt by apply pos_INR. reflexivity. }
    unfold spectral. apply (log_ge m n (fun i => snd (eigh m T) 0%nat i ^ 2) (fst (eigh m T)) (fun k => dot n (fun i => P i k) v1 ^ 2) a); auto.
    - intros k Hk. rewrite (quad_moment n m A matvec v1 draw T V (fst (eigh m T)) (snd (eigh m T)) S MV U Hm E R NT EG k) by lia.
      rewrite (eigen_moment n A a P EA). reflexivity.
    - intros. apply pow2_ge_0.
    - intros. apply pow2_ge_0.
    - intros i Hi. specialize (RL i Hi). lra.
    - intros i Hi. specialize (LO i Hi). lra.
  Qed.
  Lemma logdet_over : forall ne signs, (0 < ne)%nat -> (forall p, (p < ne)%nat -> is_sign n (fun i => signs i p)) ->
    (forall p, (p < ne)%nat -> probe_ok n m matvec draw eigh (fun i => signs i p)) ->
    / INR ne * sum ne (fun p => spectral n a P ln (fun i => signs i p)) <= lanczos_logdet eigh matvec ne n m signs draw.
  Proof.
    intros ne signs Hne HS HP.
    pose (g := (fun p => let T := fst (lanczos_tridiagonal matvec m n (col (fun i p0 => signs i p0 / vnorm n (col signs p0)) p) draw) in
       sum m (fun i => snd (eigh m T) 0%nat i ^ 2 * ln (Rmax (fst (eigh m T) i) (/ 10 ^ 36))))).
    change (/ INR ne * sum ne (fun p => spectral n a P ln (fun i => signs i p)) <= INR n / INR ne * fori ne (fun b l => l + g b) 0).
    rewrite fori_sum, Rplus_0_l. assert (0 < INR n) by now apply lt_0_INR. assert (0 < INR ne) by now apply lt_0_INR.
    apply (Rle_trans _ (INR n / INR ne * sum ne (fun p => spectral n a P ln (fun i => signs i p) / INR n))).
    - rewrite sum_div. right. field. lra.
    - apply Rmult_le_compat_l; [left; apply Rdiv_lt_0_compat; auto|]. apply sum_le. intros p Hp. pose proof (one_probe_over _ (HS p Hp) (HP p Hp)) as Q. cbv zeta in Q.
      unfold g. cbv zeta. replace (col (fun i p0 => signs i p0 / vnorm n (col signs p0)) p) with (fun i => signs i p / sqrt (INR n)); [exact Q|].
      apply functional_extensionality. intro i. unfold col. f_equal. symmetry. now apply sign_norm, HS.
  Qed.
  Lemma logdet_mean_over : forall ne, (0 < ne)%nat -> (forall s, is_sign n s -> probe_ok n m matvec draw eigh s) ->
    ln (det n A) <= probe_mean ne n (fun signs => lanczos_logdet eigh matvec ne n m signs draw).
  Proof.
    intros ne Hne HP. apply (Rle_trans _ (probe_mean ne n (fun signs => / INR ne * sum ne (fun p => spectral n a P ln (fun i => signs i p))))).
    2:{ apply probe_mean_le. intros M HM. apply logdet_over; auto. }
    right. rewrite probe_mean_scal, probe_mean_sum. rewrite (sum_ext ne _ (fun _ => sum n (fun k => ln (a k)))).
    - rewrite sum_const. rewrite (det_eigen n m A a P 0 Hn Hm EA (Nat.le_0_l m)), ln_prod.
      + field. apply not_0_INR. lia.
      + intros i Hi. apply (Rlt_le_trans _ (/ 10 ^ 36)); [apply Rinv_0_lt_compat, pow_lt; lra|]. apply LO. auto.
    - intros p Hp. rewrite (probe_mean_col ne n p (spectral n a P ln)) by auto. exact (spectral_mean n A a P ln EA).
  Qed.
End Over.
