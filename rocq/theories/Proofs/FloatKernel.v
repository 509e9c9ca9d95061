(** The computed kernels are close to the exact ones; what must be added to a computed Gram matrix. *)
From Coq Require Import Reals List Lia Lra Psatz.
From Flocq Require Import Core.
From Verif Require Import Base.Sums Base.Mat Model.Arrays Model.Distances Model.Kernels Model.FloatDistances
  Spec.FloatSpec Spec.KernelSpec Proofs.FloatFacts Proofs.FloatExamples Proofs.KernelPropLemmas.
Open Scope R_scope.

(** * exp *)
Lemma exp_mono : forall a c, a <= c -> exp a <= exp c.
Proof. intros a c [H| ->]; [left; apply exp_increasing, H|right; reflexivity]. Qed.
Lemma exp_close : forall a c e, 0 <= c -> Rabs (a - c) <= e -> Rabs (exp (- a) - exp (- c)) <= exp e - 1.
Proof.
  intros a c e C H. apply Rabs_le_inv in H.
  assert (P : 0 < exp (- c) <= 1).
  { split; [apply exp_pos|]. rewrite <- exp_0. apply exp_mono. lra. }
  replace (exp (- a)) with (exp (- c) * exp (c - a)) by (rewrite <- exp_plus; f_equal; ring).
  assert (U : exp (c - a) <= exp e) by (apply exp_mono; lra).
  assert (L : exp (- e) <= exp (c - a)) by (apply exp_mono; lra).
  assert (E1 : 1 <= exp e) by (rewrite <- exp_0; apply exp_mono; lra).
  assert (E2 : 2 - exp e <= exp (- e)).
  { rewrite exp_Ropp. apply Rmult_le_reg_r with (exp e); [lra|]. rewrite Rinv_l by lra.
    pose proof (pow2_ge_0 (exp e - 1)). nra. }
  replace (exp (- c) * exp (c - a) - exp (- c)) with (exp (- c) * (exp (c - a) - 1)) by ring.
  rewrite Rabs_mult, (Rabs_pos_eq (exp (- c))) by lra.
  assert (B : Rabs (exp (c - a) - 1) <= exp e - 1) by (apply Rabs_le; lra).
  pose proof (Rabs_pos (exp (c - a) - 1)).
  eapply Rle_trans; [apply Rmult_le_compat_r; [assumption|apply (proj2 P)]|]. lra.
Qed.
Lemma fexp_close : forall fexp eps a c e, accurate eps fexp ->
  0 <= c -> Rabs (a - c) <= e -> Rabs (fexp (- a) - exp (- c)) <= exp e - 1 + eps * exp e + underflow.
Proof.
  intros fexp eps a c e [P F] C H. pose proof (exp_close a c e C H) as X.
  specialize (F (- a)). apply Rabs_le_inv in H.
  assert (M : exp (- a) <= exp e) by (apply exp_mono; lra).
  pose proof (Rmult_le_compat_l _ _ _ P M).
  replace (fexp (- a) - exp (- c)) with ((fexp (- a) - exp (- a)) + (exp (- a) - exp (- c))) by ring.
  eapply Rle_trans; [apply Rabs_triang|]. lra.
Qed.

(** * The two kernels *)
Lemma distance2_nonneg : forall n z1 z2, 0 <= distance2 n z1 z2.
Proof. intros. apply sum_nonneg. intros. apply pow2_ge_0. Qed.
Lemma se_close : forall fexp eps n D o1 o2 o12 l x1 x2,
  accurate eps fexp ->
  adds n o1 -> adds n o2 -> adds n o12 ->
  (depth o1 <= D)%nat -> (depth o2 <= D)%nat -> (depth o12 <= D)%nat ->
  Rabs (fsquared_exponential fexp o1 o2 o12 l x1 x2 - exp (- (distance2 n (fscale l x1) (fscale l x2) + jit12)))
    <= kernel_error eps (distance_error n D (fscale l x1) (fscale l x2)).
Proof.
  intros fexp eps n D o1 o2 o12 l x1 x2 F A1 A2 A12 D1 D2 D12. unfold fsquared_exponential, kernel_error.
  apply fexp_close; [exact F| |apply fdistance2_err; assumption].
  pose proof (distance2_nonneg n (fscale l x1) (fscale l x2)). pose proof jit12_pos. lra.
Qed.
Lemma sqrt_close : forall p q, 0 <= p -> 0 <= q -> Rabs (sqrt p - sqrt q) <= sqrt (Rabs (p - q)).
Proof.
  assert (K : forall p q, 0 <= q -> q <= p -> sqrt p - sqrt q <= sqrt (p - q)).
  { intros p q Q H. enough (sqrt p <= sqrt q + sqrt (p - q)) by lra.
    pose proof (sqrt_pos q). pose proof (sqrt_pos (p - q)).
    apply Rsqr_incr_0_var; [|lra]. unfold Rsqr. rewrite sqrt_sqrt by lra.
    assert (E : (sqrt q + sqrt (p - q)) * (sqrt q + sqrt (p - q))
              = sqrt q * sqrt q + sqrt (p - q) * sqrt (p - q) + 2 * (sqrt q * sqrt (p - q))) by ring.
    rewrite E, !sqrt_sqrt by lra. pose proof (Rmult_le_pos _ _ H0 H1). lra. }
  intros p q P Q. destruct (Rle_dec q p) as [H|H].
  - rewrite (Rabs_pos_eq (p - q)) by lra. rewrite Rabs_pos_eq; [apply K; lra|].
    pose proof (sqrt_le_1_alt q p H). lra.
  - rewrite (Rabs_left1 (p - q)) by lra. rewrite Rabs_left1.
    + replace (- (p - q)) with (q - p) by ring. pose proof (K q p). lra.
    + assert (H' : p <= q) by lra. pose proof (sqrt_le_1_alt p q H'). lra.
Qed.
Lemma max_close : forall p q m e, m <= q -> Rabs (p - q) <= e -> Rabs (Rmax p m - q) <= e.
Proof.
  intros p q m e M H. apply Rabs_le_inv in H. apply Rabs_le.
  destruct (Rle_dec p m) as [L|L]; [rewrite Rmax_right by exact L; lra|rewrite Rmax_left by lra; lra].
Qed.
Lemma tiny_le : fl (/ 10 ^ 36) <= jit12.
Proof.
  assert (F : fl (bpow radix2 (-100)) = bpow radix2 (-100)) by (apply fl_id, generic_format_bpow; unfold FLT_exp; lia).
  apply Rle_trans with (bpow radix2 (-100)).
  - rewrite <- F. apply fl_le. change (bpow radix2 (-100)) with (/ IZR (2 ^ 100)).
    replace (/ 10 ^ 36) with (/ IZR (10 ^ 36)).
    2: { f_equal. change 36%Z with (Z.of_nat 36). rewrite <- pow_IZR. reflexivity. }
    apply Rinv_le_contravar; [apply IZR_lt; reflexivity|apply IZR_le; apply Z.leb_le; vm_compute; reflexivity].
  - unfold jit12. change (bpow radix2 (-100)) with (/ IZR (2 ^ 100)).
    replace (/ 10 ^ 12) with (/ IZR (10 ^ 12)).
    2: { f_equal. change 12%Z with (Z.of_nat 12). rewrite <- pow_IZR. reflexivity. }
    apply Rinv_le_contravar; [apply IZR_lt; reflexivity|apply IZR_le; apply Z.leb_le; vm_compute; reflexivity].
Qed.
Lemma m12_close : forall fexp eps n D o1 o2 o12 l x1 x2,
  accurate eps fexp ->
  adds n o1 -> adds n o2 -> adds n o12 ->
  (depth o1 <= D)%nat -> (depth o2 <= D)%nat -> (depth o12 <= D)%nat ->
  Rabs (fmatern12 fexp o1 o2 o12 l x1 x2 - exp (- sqrt (distance2 n (fscale l x1) (fscale l x2) + jit12)))
    <= kernel_error eps (root_error n D (fscale l x1) (fscale l x2)).
Proof.
  intros fexp eps n D o1 o2 o12 l x1 x2 F A1 A2 A12 D1 D2 D12. unfold fmatern12, kernel_error.
  set (z1 := fscale l x1). set (z2 := fscale l x2).
  pose proof (fdistance2_err n D o1 o2 o12 z1 z2 A1 A2 A12 D1 D2 D12) as E.
  pose proof (distance2_nonneg n z1 z2) as D0. pose proof jit12_pos as J. pose proof tiny_le as T.
  apply fexp_close; [exact F|apply sqrt_pos|].
  assert (M0 : 0 <= fl (/ 10 ^ 36)).
  { rewrite <- fl_0. apply fl_le. left. apply Rinv_0_lt_compat, pow_lt. lra. }
  set (p := fdistance2 o1 o2 o12 z1 z2) in *. set (q := distance2 n z1 z2 + jit12) in *. set (m := fl (/ 10 ^ 36)) in *.
  assert (Q0 : m <= q) by (unfold q; lra).
  pose proof (max_close p q m _ Q0 E) as X.
  assert (P0 : 0 <= Rmax p m) by (eapply Rle_trans; [exact M0|apply Rmax_r]).
  assert (S : Rabs (sqrt (Rmax p m) - sqrt q) <= sqrt (distance_error n D z1 z2)).
  { eapply Rle_trans; [apply sqrt_close; lra|apply sqrt_le_1_alt, X]. }
  pose proof (fl_err (sqrt (Rmax p m))) as R. rewrite (Rabs_pos_eq (sqrt _)) in R by apply sqrt_pos.
  unfold root_error. fold q. set (h := sqrt (distance_error n D z1 z2)) in *. pose proof u_pos as U.
  assert (B : sqrt (Rmax p m) <= sqrt q + h) by (apply Rabs_le_inv in S; lra).
  pose proof (Rmult_le_compat_l _ _ _ (Rlt_le _ _ U) B).
  replace (fl (sqrt (Rmax p m)) - sqrt q) with ((fl (sqrt (Rmax p m)) - sqrt (Rmax p m)) + (sqrt (Rmax p m) - sqrt q)) by ring.
  eapply Rle_trans; [apply Rabs_triang|]. lra.
Qed.

(** * Gram matrices *)
Lemma kk_se : forall n (Z : Mat) i j,
  kk n (KAtom None (ASE 1)) Z Z i j = exp (- (distance2 n (Z i) (Z j) + jit12)).
Proof.
  intros. cbn [kk atom_k]. unfold se_fast. f_equal. f_equal. unfold squared_distances, scaled, gatherM, gather, dims, distance2.
  rewrite seq_length, <- sum_scal_l, <- sum_minus, <- sum_plus. f_equal. apply sum_ext. intros a Ha.
  rewrite seq_nth by exact Ha. simpl plus. field.
Qed.
Lemma kk_m12 : forall n (Z : Mat) i j,
  kk n (KAtom None (AM12 1)) Z Z i j = exp (- sqrt (distance2 n (Z i) (Z j) + jit12)).
Proof.
  intros. cbn [kk atom_k]. unfold m12_fast. cbn zeta.
  replace (squared_distances _ _ _ i j) with (distance2 n (Z i) (Z j) + jit12).
  2: { unfold squared_distances, scaled, gatherM, gather, dims, distance2.
       rewrite seq_length, <- sum_scal_l, <- sum_minus, <- sum_plus. f_equal. apply sum_ext. intros a Ha.
       rewrite seq_nth by exact Ha. simpl plus. field. }
  rewrite Rmax_left; [reflexivity|].
  pose proof (distance2_nonneg n (Z i) (Z j)).
  assert (tiny36 <= jit12) by (unfold tiny36, jit12; apply Rinv_le_contravar; [apply pow_lt; lra|apply Rle_pow; [lra|lia]]).
  lra.
Qed.
Lemma near_psd : forall N (A B : Mat) e s, psd N B ->
  (forall i j, (i < N)%nat -> (j < N)%nat -> Rabs (A i j - B i j) <= e) -> INR N * e <= s ->
  psd N (fun i j => A i j + s * eye i j).
Proof.
  intros N A B e s HB H S v.
  assert (D : qf N (fun i j => A i j + s * eye i j) v
    = qf N B v + qf N (fun i j => A i j - B i j) v + s * sum N (fun i => v i ^ 2)).
  { unfold qf. rewrite <- sum_scal_l, <- !sum_plus. apply sum_ext. intros i Hi.
    rewrite <- sum_plus.
    transitivity (sum N (fun j => v i * B i j * v j + v i * (A i j - B i j) * v j + delta i j * (s * (v i * v j)))).
    - apply sum_ext. intros j _. unfold eye. ring.
    - rewrite sum_plus. f_equal. rewrite sum_delta_l by exact Hi. ring. }
  rewrite D. specialize (HB v).
  assert (X : Rabs (qf N (fun i j => A i j - B i j) v) <= e * (INR N * sum N (fun i => v i ^ 2))).
  { unfold qf. eapply Rle_trans; [apply sum_abs_le|].
    apply Rle_trans with (sum N (fun i => sum N (fun j => e * ((v i ^ 2 + v j ^ 2) / 2)))).
    - apply sum_le. intros i Hi. eapply Rle_trans; [apply sum_abs_le|]. apply sum_le. intros j Hj.
      rewrite !Rabs_mult. specialize (H i j Hi Hj).
      assert (G : Rabs (v i) * Rabs (v j) <= (v i ^ 2 + v j ^ 2) / 2).
      { pose proof (pow2_ge_0 (Rabs (v i) - Rabs (v j))). rewrite <- (pow2_abs (v i)), <- (pow2_abs (v j)). lra. }
      pose proof (Rabs_pos (v i)). pose proof (Rabs_pos (v j)). pose proof (Rabs_pos (A i j - B i j)).
      replace (Rabs (v i) * Rabs (A i j - B i j) * Rabs (v j)) with (Rabs (A i j - B i j) * (Rabs (v i) * Rabs (v j))) by ring.
      apply Rmult_le_compat; try assumption. apply Rmult_le_pos; assumption.
    - right. rewrite (sum_ext N _ (fun i => e * ((INR N * v i ^ 2 + sum N (fun j => v j ^ 2)) / 2))).
      + rewrite sum_scal_l, sum_div, sum_plus, sum_scal_l, sum_const. field.
      + intros i _. rewrite sum_scal_l, sum_div, sum_plus, sum_const. reflexivity. }
  apply Rabs_le_inv in X.
  assert (V : 0 <= sum N (fun i => v i ^ 2)) by (apply sum_nonneg; intros; apply pow2_ge_0).
  pose proof (Rmult_le_compat_r _ _ _ V S). lra.
Qed.
Lemma kernel_error_mono : forall eps a c, 0 <= eps -> a <= c -> kernel_error eps a <= kernel_error eps c.
Proof.
  intros eps a c P H. unfold kernel_error. pose proof (exp_mono a c H) as M.
  pose proof (Rmult_le_compat_l _ _ _ P M). lra.
Qed.
Lemma se_gram : forall fexp eps n D N o1 o2 o12 l (X : Mat) e s,
  accurate eps fexp ->
  (forall i j, adds n (o1 i j) /\ adds n (o2 i j) /\ adds n (o12 i j)) ->
  (forall i j, (depth (o1 i j) <= D)%nat /\ (depth (o2 i j) <= D)%nat /\ (depth (o12 i j) <= D)%nat) ->
  (forall i j, (i < N)%nat -> (j < N)%nat -> distance_error n D (fscale l (X i)) (fscale l (X j)) <= e) ->
  INR N * kernel_error eps e <= s ->
  psd N (fun i j => fsquared_exponential fexp (o1 i j) (o2 i j) (o12 i j) l (X i) (X j) + s * eye i j).
Proof.
  intros fexp eps n D N o1 o2 o12 l X e s F A Dp E S.
  apply (near_psd N _ (kk n (KAtom None (ASE 1)) (fun i => fscale l (X i)) (fun i => fscale l (X i))) (kernel_error eps e)); [| |exact S].
  - intros v. apply (gram_psd_kk n N (fun i => fscale l (X i)) (KAtom None (ASE 1)) I v).
  - intros i j Hi Hj. rewrite kk_se. destruct (A i j) as (A1 & A2 & A3). destruct (Dp i j) as (D1 & D2 & D3).
    eapply Rle_trans; [apply (se_close fexp eps n D); assumption|].
    apply kernel_error_mono; [exact (proj1 F)|apply E; assumption].
Qed.
Lemma m12_gram : forall fexp eps n D N o1 o2 o12 l (X : Mat) e s,
  accurate eps fexp ->
  (forall i j, adds n (o1 i j) /\ adds n (o2 i j) /\ adds n (o12 i j)) ->
  (forall i j, (depth (o1 i j) <= D)%nat /\ (depth (o2 i j) <= D)%nat /\ (depth (o12 i j) <= D)%nat) ->
  (forall i j, (i < N)%nat -> (j < N)%nat -> root_error n D (fscale l (X i)) (fscale l (X j)) <= e) ->
  INR N * kernel_error eps e <= s ->
  psd N (fun i j => fmatern12 fexp (o1 i j) (o2 i j) (o12 i j) l (X i) (X j) + s * eye i j).
Proof.
  intros fexp eps n D N o1 o2 o12 l X e s F A Dp E S.
  apply (near_psd N _ (kk n (KAtom None (AM12 1)) (fun i => fscale l (X i)) (fun i => fscale l (X i))) (kernel_error eps e)); [| |exact S].
  - intros v. apply (gram_psd_kk n N (fun i => fscale l (X i)) (KAtom None (AM12 1)) I v).
  - intros i j Hi Hj. rewrite kk_m12. destruct (A i j) as (A1 & A2 & A3). destruct (Dp i j) as (D1 & D2 & D3).
    eapply Rle_trans; [apply (m12_close fexp eps n D); assumption|].
    apply kernel_error_mono; [exact (proj1 F)|apply E; assumption].
Qed.
(** * A case *)
Lemma rexp_accurate : accurate unit_roundoff (fun t => fl (exp t)).
Proof.
  split; [left; apply u_pos|]. intros t. pose proof (fl_err (exp t)) as H.
  rewrite (Rabs_pos_eq (exp t)) in H by (left; apply exp_pos). exact H.
Qed.
Lemma gram_case : forall (X : Mat) n N l, exists e s : R,
  forall i j, (i < N)%nat -> (j < N)%nat ->
  distance_error n n (fscale l (X i)) (fscale l (X j)) <= e /\ root_error n n (fscale l (X i)) (fscale l (X j)) <= e /\
  INR N * kernel_error unit_roundoff e <= s.
Proof.
  intros X n N l.
  assert (B : forall f : nat -> nat -> R, exists e, forall i j, (i < N)%nat -> (j < N)%nat -> f i j <= e).
  { intros f. exists (sum N (fun i => sum N (fun j => Rabs (f i j)))). intros i j Hi Hj.
    eapply Rle_trans; [apply Rle_abs|].
    eapply Rle_trans; [apply (sum_term_le N (fun j => Rabs (f i j)))|]; [intros; apply Rabs_pos|exact Hj|].
    apply (sum_term_le N (fun i => sum N (fun j => Rabs (f i j)))); [|exact Hi].
    intros. apply sum_nonneg. intros. apply Rabs_pos. }
  destruct (B (fun i j => distance_error n n (fscale l (X i)) (fscale l (X j)))) as [e1 H1].
  destruct (B (fun i j => root_error n n (fscale l (X i)) (fscale l (X j)))) as [e2 H2].
  exists (Rmax e1 e2), (INR N * kernel_error unit_roundoff (Rmax e1 e2)). intros i j Hi Hj. split; [|split].
  - eapply Rle_trans; [apply (H1 i j Hi Hj)|apply Rmax_l].
  - eapply Rle_trans; [apply (H2 i j Hi Hj)|apply Rmax_r].
  - right. reflexivity.
Qed.
Lemma left_to_right_ok : forall n, adds n (left_to_right n) /\ (depth (left_to_right n) <= n)%nat.
Proof.
  induction n as [|n [H1 H2]]; [split; [apply Permutation.Permutation_refl|apply Nat.le_refl]|]. split.
  - unfold adds in *. rewrite seq_S. cbn [left_to_right added]. apply Permutation.Permutation_app_tail, H1.
  - cbn [left_to_right depth]. lia.
Qed.
