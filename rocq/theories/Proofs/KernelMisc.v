(** Values at coincident points, periodicity, centring and the custom jvp rules. *)
From Coq Require Import Reals Lra Lia Arith List FunctionalExtensionality ZArith.
From Coquelicot Require Import Coquelicot.
From Verif Require Import Base.Sums Base.Mat Base.PSD Model.Arrays Model.Distances Model.Kernelizers
  Model.Kernels Model.KernelOps Model.MaternJvp Spec.Partial Spec.KernelSpec Proofs.Deriv
  Proofs.KernelAtoms Proofs.KernelJets Proofs.KernelMethods Proofs.KernelDerivs Proofs.KernelSym
  Proofs.KernelBounds.
Open Scope R_scope.

(** ** coincident points *)
Lemma sqd_refl : forall ds l x, usum ds (h_sq l) x x = 0.
Proof. intros. apply sum_zero_ext. intros. unfold h_sq. ring. Qed.
Lemma per_refl : forall ds l p x, usum ds (h_per l p) x x = 0.
Proof.
  intros. apply sum_zero_ext. intros. rewrite h_per_eq.
  replace (PI * (gather ds x i - gather ds x i) / p) with 0 by (unfold Rdiv; ring).
  rewrite sin_0. unfold Rdiv. ring.
Qed.
Lemma base_diag : forall nf ad a x, base_one a -> kernel_base nf ad a x x = 1.
Proof.
  intros nf ad a x H. rewrite base_kap. unfold kap. destruct a; simpl in *; try contradiction.
  - rewrite sqd_refl, Ropp_0. apply exp_0.
  - rewrite per_refl, Rmult_0_r. apply exp_0.
Qed.
Lemma fast_diag_lt : forall nf ad a l x, sq_scale a = Some l ->
  1 - atom_err a <= kernel_at nf (KAtom ad a) x x < 1.
Proof.
  intros nf ad a l x H. rewrite kernel_at_atom. unfold fkap, kap. pose proof jit12_pos as J.
  assert (P : forall c, 0 < c -> 0 < dd c jit12 0).
  { intros. apply dd_pos. rewrite Rplus_0_l. now apply Rmult_lt_0_compat. }
  assert (Q : forall c, 0 < c -> dd c jit12 0 * dd c jit12 0 = c * jit12).
  { intros c Hc. unfold dd. rewrite Rplus_0_l, sqrt_def; auto. apply Rmult_le_pos; lra. }
  destruct a; simpl in *; inversion H; subst; rewrite sqd_refl.
  - rewrite Rplus_0_l. split.
    + pose proof (exp_ge_1p (- jit12)). unfold jit12 in *. lra.
    + rewrite <- exp_0. apply exp_increasing. lra.
  - specialize (P 1 ltac:(lra)). split.
    + assert (E : dd 1 jit12 0 = / 10 ^ 6).
      { unfold dd. rewrite Rplus_0_l, Rmult_1_l. apply jit6_sqrt. }
      unfold m12_phi. rewrite E. pose proof (exp_ge_1p (- / 10 ^ 6)). lra.
    + unfold m12_phi. apply Rlt_le_trans with (exp 0); [apply exp_increasing; lra|rewrite exp_0; lra].
  - specialize (P 3 ltac:(lra)). change (m32_phi 3 jit12 0) with (g32 (dd 3 jit12 0)).
    split.
    + pose proof (g32_lip 0 (dd 3 jit12 0) ltac:(lra)) as G. rewrite g32_0 in G. specialize (Q 3 ltac:(lra)).
      unfold jit12 in *. lra.
    + apply Rlt_le_trans with (g32 0); [apply g32_strict; lra|rewrite g32_0; lra].
  - specialize (P 5 ltac:(lra)). change (m52_phi 5 jit12 0) with (g52 (dd 5 jit12 0)).
    split.
    + pose proof (g52_lip 0 (dd 5 jit12 0) ltac:(lra)) as G. rewrite g52_0 in G. specialize (Q 5 ltac:(lra)).
      unfold jit12 in *. lra.
    + apply Rlt_le_trans with (g52 0); [apply g52_strict; lra|rewrite g52_0; lra].
Qed.

(** ** periodic kernel *)
Lemma sin_sq_shift : forall x k, sin (x + IZR k * PI) ^ 2 = sin x ^ 2.
Proof.
  assert (N : forall n x, sin (x + INR n * PI) ^ 2 = sin x ^ 2).
  { induction n; intros x.
    - simpl INR. rewrite Rmult_0_l, Rplus_0_r. reflexivity.
    - rewrite S_INR. replace (x + (INR n + 1) * PI) with ((x + INR n * PI) + PI) by ring.
      rewrite neg_sin. rewrite <- (IHn x). ring. }
  intros x k. destruct (Z_le_gt_dec 0 k) as [H|H].
  - rewrite <- (Z2Nat.id k H), <- INR_IZR_INZ. apply N.
  - assert (E : IZR k = - INR (Z.to_nat (- k))).
    { rewrite INR_IZR_INZ, Z2Nat.id by lia. rewrite opp_IZR. ring. }
    rewrite E. rewrite <- (N (Z.to_nat (- k)) (x + - INR (Z.to_nat (- k)) * PI)).
    f_equal. f_equal. ring.
Qed.
Lemma h_per_shift : forall l p x y k, p <> 0 -> h_per l p (x + IZR k * p) y = h_per l p x y.
Proof.
  intros l p x y k Hp. rewrite !h_per_eq. f_equal.
  replace (PI * (x + IZR k * p - y) / p) with (PI * (x - y) / p + IZR k * PI) by (field; auto).
  apply sin_sq_shift.
Qed.
Lemma per_shift : forall nf ad l p x y f k, p <> 0 ->
  kernel_at nf (KAtom ad (APer l p)) (upd x f (x f + IZR k * p)) y
  = kernel_at nf (KAtom ad (APer l p)) x y.
Proof.
  intros. rewrite !kernel_at_atom. unfold fkap, kap. simpl. do 2 f_equal.
  unfold usum. apply sum_ext; intros i Hi. unfold gather.
  destruct (Nat.eq_dec (nth i (dims nf ad) O) f) as [E|E].
  - rewrite E, upd_same. now apply h_per_shift.
  - now rewrite upd_other by auto.
Qed.
(** the circle map: feature a is sent to (cos, sin) at positions 2a, 2a+1 *)
Definition circle (p : R) (x : Vec) : Vec := fun b =>
  if Nat.even b then cos (2 * PI * x (Nat.div2 b) / p) else sin (2 * PI * x (Nat.div2 b) / p).
Lemma sum_pairs : forall n f, sum (2 * n) f = sum n (fun a => f (2 * a)%nat + f (2 * a + 1)%nat).
Proof.
  induction n; intros f; [reflexivity|].
  replace (2 * S n)%nat with (S (S (2 * n))) by lia. 
  change (sum (S (S (2 * n))) f) with (sum (2 * n) f + f (2 * n)%nat + f (S (2 * n))).
  rewrite IHn. change (sum (S n) ?g) with (sum n g + g n). cbv beta.
  replace (2 * n + 1)%nat with (S (2 * n)) by lia. ring.
Qed.
Lemma circle_even : forall p x a, circle p x (2 * a)%nat = cos (2 * PI * x a / p).
Proof.
  intros. unfold circle.
  replace (Nat.even (2 * a)) with true by (rewrite Nat.even_mul; auto).
  now rewrite Nat.div2_double.
Qed.
Lemma circle_odd : forall p x a, circle p x (2 * a + 1)%nat = sin (2 * PI * x a / p).
Proof.
  intros. unfold circle. replace (2 * a + 1)%nat with (S (2 * a)) by lia.
  rewrite Nat.div2_succ_double. rewrite Nat.even_succ.
  replace (Nat.odd (2 * a)) with false; auto.
  symmetry. rewrite <- Nat.negb_even. rewrite Nat.even_mul. auto.
Qed.
Lemma per_circle : forall l p na x y, 0 < l -> p <> 0 ->
  per_base l p na x y = se_base (sqrt l) (2 * na) (circle p x) (circle p y).
Proof.
  intros l p na x y Hl Hp. unfold per_base, se_base. f_equal.
  rewrite sum_pairs, <- sum_scal_l, <- sum_opp. apply sum_ext; intros a Ha.
  rewrite !circle_even, !circle_odd. rewrite sin_abs_sq.
  set (u := 2 * PI * x a / p). set (v := 2 * PI * y a / p).
  assert (S : sqrt l * sqrt l = l) by (apply sqrt_def; lra).
  assert (P : sqrt l <> 0) by (apply Rgt_not_eq; now apply sqrt_lt_R0).
  replace ((cos u / sqrt l - cos v / sqrt l) ^ 2 + (sin u / sqrt l - sin v / sqrt l) ^ 2)
    with (((cos u)² + (sin u)² + ((cos v)² + (sin v)²) - 2 * (cos u * cos v + sin u * sin v)) / (sqrt l * sqrt l))
    by (unfold Rsqr; field; auto).
  rewrite S. rewrite !(Rplus_comm ((cos _)²)), !sin2_cos2. rewrite <- cos_minus.
  replace (u - v) with (2 * (PI * (x a - y a) / p)) by (unfold u, v; field; auto).
  rewrite cos_2a_sin. field. lra.
Qed.

(** ** centring *)
Section Centring.
Variables (n D : nat) (Phi : Mat).   (* features of the n training points *)
Hypothesis Hn : (0 < n)%nat.
Definition fmean : Vec := fun d => sum n (fun i => Phi i d) / INR n.
Definition ip (u v : Vec) : R := sum D (fun d => u d * v d).
Lemma ip_mean_l : forall v, ip fmean v = sum n (fun i => ip (Phi i) v) / INR n.
Proof.
  intros v. unfold ip, fmean. rewrite sum_swap. rewrite <- sum_div.
  apply sum_ext; intros d Hd. rewrite sum_scal_r. unfold Rdiv. ring.
Qed.
Lemma ip_sym : forall u v, ip u v = ip v u.
Proof. intros. apply sum_ext; intros; ring. Qed.
Lemma ip_sub : forall u v w z, ip (fun d => u d - w d) (fun d => v d - z d)
  = ip u v - ip w v - ip u z + ip w z.
Proof.
  intros. unfold ip. rewrite <- !sum_minus, <- sum_plus. apply sum_ext; intros; ring.
Qed.
Lemma center_ip : forall (K Kt : Mat) (Psi : Mat) m,
  (forall i j, (i < n)%nat -> (j < n)%nat -> Kt i j = ip (Phi i) (Phi j)) ->
  (forall i j, (i < n)%nat -> (j < m)%nat -> K i j = ip (Phi i) (Psi j)) ->
  forall i j, (i < n)%nat -> (j < m)%nat ->
  kernel_center n K (mean0 n Kt) i j
  = ip (fun d => Phi i d - fmean d) (fun d => Psi j d - fmean d).
Proof.
  intros K Kt Psi m HKt HK i j Hi Hj. unfold kernel_center, mean0, vmean.
  rewrite ip_sub. rewrite HK by auto. f_equal; [f_equal|].
  - f_equal. rewrite ip_mean_l. f_equal. apply sum_ext; intros; auto.
  - rewrite (ip_sym (Phi i)), ip_mean_l. f_equal. apply sum_ext; intros; auto.
  - rewrite ip_mean_l. f_equal. apply sum_ext; intros k Hk.
    rewrite (ip_sym (Phi k)), ip_mean_l. f_equal. apply sum_ext; intros; auto.
Qed.
Lemma center_tt : forall (K Kt Ktt : Mat) (Psi : Mat) m,
  (forall i j, (i < n)%nat -> (j < n)%nat -> Kt i j = ip (Phi i) (Phi j)) ->
  (forall i j, (i < n)%nat -> (j < m)%nat -> Ktt i j = ip (Phi i) (Psi j)) ->
  (forall i j, (i < m)%nat -> (j < m)%nat -> K i j = ip (Psi i) (Psi j)) ->
  forall i j, (i < m)%nat -> (j < m)%nat ->
  kernel_center_test_test n K (mean0 n Kt) (mean0 n Ktt) i j
  = ip (fun d => Psi i d - fmean d) (fun d => Psi j d - fmean d).
Proof.
  intros K Kt Ktt Psi m HKt HKtt HK i j Hi Hj. unfold kernel_center_test_test, mean0, vmean.
  rewrite ip_sub. rewrite HK by auto. f_equal; [f_equal|].
  - f_equal. rewrite ip_mean_l. f_equal. apply sum_ext; intros; auto.
  - rewrite (ip_sym (Psi i)), ip_mean_l. f_equal. apply sum_ext; intros; auto.
  - rewrite ip_mean_l. f_equal. apply sum_ext; intros k Hk.
    rewrite (ip_sym (Phi k)), ip_mean_l. f_equal. apply sum_ext; intros; auto.
Qed.
End Centring.

Lemma center_col_sum : forall n K km j, (0 < n)%nat ->
  sum n (fun i => kernel_center n K km i j) = 0.
Proof.
  intros n K km j Hn. assert (INR n <> 0) by (apply not_0_INR; lia).
  unfold kernel_center. rewrite sum_plus, !sum_minus, !sum_const. unfold mean0, vmean. field. auto.
Qed.
Lemma center_row_sum : forall n K i, (0 < n)%nat -> sym n K -> (i < n)%nat ->
  sum n (fun j => kernel_center n K (mean0 n K) i j) = 0.
Proof.
  intros n K i Hn Hs Hi. assert (INR n <> 0) by (apply not_0_INR; lia).
  unfold kernel_center. rewrite sum_plus, !sum_minus, !sum_const. unfold vmean.
  assert (E : sum n (K i) = sum n (fun j => K j i)) by (apply sum_ext; intros; auto).
  set (S := sum n (mean0 n K)). unfold mean0. rewrite E. field. auto.
Qed.
Lemma center_sym : forall n K, sym n K -> sym n (kernel_center n K (mean0 n K)).
Proof.
  intros n K Hs i j Hi Hj. unfold kernel_center. rewrite (Hs i j) by auto. ring.
Qed.
Lemma center_idem : forall n K i j, (0 < n)%nat ->
  let C := kernel_center n K (mean0 n K) in
  kernel_center n C (mean0 n C) i j = C i j.
Proof.
  intros n K i j Hn C. unfold kernel_center at 1.
  assert (Z : forall j, mean0 n C j = 0).
  { intros k. unfold mean0 at 1. replace (sum n (fun i0 => C i0 k)) with 0; [unfold Rdiv; ring|]. symmetry. apply (center_col_sum n K _ k Hn). }
  assert (V : vmean n (mean0 n C) = 0).
  { unfold vmean. rewrite sum_zero_ext; [unfold Rdiv; ring|]. intros. apply Z. }
  rewrite V, !Z. ring.
Qed.
Lemma center_psd : forall n K, (0 < n)%nat -> sym n K -> psd n K ->
  psd n (kernel_center n K (mean0 n K)).
Proof.
  intros n K Hn Hs HP. pose proof (psd_factor n K Hs HP) as HF.
  set (F := cfac K) in *.
  apply (psd_ext n (gram n (fun i d => F i d - fmean n F d))).
  - intros i j Hi Hj. symmetry.
    apply (center_ip n n F K K F n); auto.
  - apply psd_gram.
Qed.

(** ** custom jvp rules *)
Section Jvp.
Variables (na : nat) (x1 x2 dx1 dx2 : Vec) (l dl : R).
Hypothesis Hl : l <> 0.
Definition udir (t : R) : R :=
  sum na (fun a => ((x1 a + t * dx1 a) / (l + t * dl) - (x2 a + t * dx2 a) / (l + t * dl)) ^ 2).
Definition zd (a : nat) : R := x1 a / l - x2 a / l.
Lemma udir_d : is_derive udir 0
  (sum na (fun a => 2 * zd a * ((dx1 a - dx2 a) / l - zd a * dl / l))).
Proof.
  unfold udir. apply is_derive_sum. intros a Ha. unfold zd.
  auto_derive.
  - rewrite !Rmult_0_l, !Rplus_0_r. auto.
  - rewrite !Rmult_0_l, !Rplus_0_r. field. auto.
Qed.
Lemma udir_0 : udir 0 = sum na (fun a => zd a ^ 2).
Proof.
  unfold udir, zd. apply sum_ext; intros. rewrite !Rmult_0_l, !Rplus_0_r. reflexivity.
Qed.
Lemma diff_sq : forall c, 0 <= c ->
  sum na (fun b => (sqrt c * (x1 b / l - x2 b / l)) ^ 2) = c * sum na (fun a => zd a ^ 2).
Proof.
  intros c Hc. rewrite <- sum_scal_l. apply sum_ext; intros b Hb. unfold zd.
  replace ((sqrt c * (x1 b / l - x2 b / l)) ^ 2) with (sqrt c * sqrt c * (x1 b / l - x2 b / l) ^ 2) by ring.
  now rewrite sqrt_def.
Qed.
Lemma jvp_split : forall (m : R),
  m * sum na (fun a => 2 * zd a * ((dx1 a - dx2 a) / l - zd a * dl / l))
  = sum na (fun a => m * (2 / l) * zd a * dx1 a) + sum na (fun a => - (m * (2 / l) * zd a) * dx2 a)
    + - (m * (2 / l) * sum na (fun a => zd a ^ 2)) * dl.
Proof.
  intros m. rewrite <- !sum_scal_l. rewrite <- sum_opp, <- sum_scal_r. rewrite <- !sum_plus.
  apply sum_ext; intros. field. auto.
Qed.
Lemma m32_jvp_ok : tiny36 < 3 * sum na (fun a => zd a ^ 2) ->
  is_derive (fun t => m32_base (l + t * dl) na (fun a => x1 a + t * dx1 a) (fun a => x2 a + t * dx2 a)) 0
    (m32_jvp l na x1 x2 dl dx1 dx2).
Proof.
  intros H. 
  apply (is_derive_ext (fun t => aphi (AM32 l) (udir t))); [intros; reflexivity|].
  eapply is_derive_eq.
  - apply (is_derive_comp (aphi (AM32 l)) udir); [|apply udir_d].
    apply aphi_d. simpl. now rewrite udir_0.
  - rewrite udir_0. change (scal ?a ?b) with (a * b).
    change (aphi' (AM32 l) ?u) with (m32_phi' 3 0 u). rewrite Rmult_comm, jvp_split.
    unfold m32_jvp. 
    assert (G : m32_phi' 3 0 (sum na (fun a => zd a ^ 2)) = - (3 / 2) * exp (- sqrt (Rmax (3 * sum na (fun a => zd a ^ 2)) tiny36))).
    { unfold m32_phi'. now rewrite <- sqrt_max_dd. }
    rewrite G. set (E := exp _).
    assert (T0 : forall a, m32_t0 l na x1 x2 a = - (3 / 2) * E * (2 / l) * zd a).
    { intros a. unfold m32_t0. cbv zeta. rewrite diff_sq by lra. fold E. unfold zd.
      transitivity (- (sqrt 3 * sqrt 3) / l * E * (x1 a / l - x2 a / l)); [field; auto|].
      rewrite sqrt3_sq. field; auto. }
    f_equal; [f_equal|].
    + apply sum_ext; intros. now rewrite T0.
    + apply sum_ext; intros. unfold m32_t1. now rewrite T0.
    + f_equal. unfold m32_t2. cbv zeta. rewrite diff_sq by lra. fold E.
      rewrite pow2_sqrt by (apply Rle_trans with tiny36; [left; apply tiny36_pos|apply Rmax_r]).
      rewrite Rmax_left by lra. field; auto.
Qed.
Lemma m52_jvp_ok : tiny36 < 5 * sum na (fun a => zd a ^ 2) ->
  is_derive (fun t => m52_base (l + t * dl) na (fun a => x1 a + t * dx1 a) (fun a => x2 a + t * dx2 a)) 0
    (m52_jvp l na x1 x2 dl dx1 dx2).
Proof.
  intros H. 
  apply (is_derive_ext (fun t => aphi (AM52 l) (udir t))); [intros; reflexivity|].
  eapply is_derive_eq.
  - apply (is_derive_comp (aphi (AM52 l)) udir); [|apply udir_d].
    apply aphi_d. simpl. now rewrite udir_0.
  - rewrite udir_0. change (scal ?a ?b) with (a * b).
    change (aphi' (AM52 l) ?u) with (m52_phi' 5 0 u). rewrite Rmult_comm, jvp_split.
    unfold m52_jvp. 
    set (u := sum na (fun a => zd a ^ 2)) in *.
    set (d := sqrt (Rmax (5 * u) tiny36)).
    assert (G : m52_phi' 5 0 u = - (5 / 6) * (1 + d) * exp (- d)).
    { unfold m52_phi', d. now rewrite <- sqrt_max_dd. }
    rewrite G. 
    assert (T0 : forall a, m52_t0 l na x1 x2 a = - (5 / 6) * (1 + d) * exp (- d) * (2 / l) * zd a).
    { intros a. unfold m52_t0. cbv zeta. rewrite diff_sq by lra. fold u. fold d. unfold zd.
      transitivity (- (sqrt 5 * sqrt 5) / (3 * l) * (1 + d) * exp (- d) * (x1 a / l - x2 a / l)); [field; auto|].
      rewrite sqrt5_sq. field; auto. }
    f_equal; [f_equal|].
    + apply sum_ext; intros. now rewrite T0.
    + apply sum_ext; intros. unfold m52_t1. now rewrite T0.
    + f_equal. unfold m52_t2. cbv zeta. rewrite diff_sq by lra. fold u. fold d.
      assert (D2 : d ^ 2 = 5 * u).
      { unfold d. rewrite pow2_sqrt by (apply Rle_trans with tiny36; [left; apply tiny36_pos|apply Rmax_r]).
        now rewrite Rmax_left by lra. }
      rewrite D2. field; auto.
Qed.
(** at coincident points the kernel is locally constant (to first order) and the rule is off
    by at most tiny36 |dl / l| in the lengthscale direction *)
Lemma udir_d0 : (forall a, (a < na)%nat -> x1 a = x2 a) -> is_derive udir 0 0.
Proof.
  intros H. eapply is_derive_eq; [apply udir_d|]. apply sum_zero_ext. intros a Ha.
  unfold zd. rewrite (H a Ha). unfold Rminus. ring.
Qed.
Lemma udir_00 : (forall a, (a < na)%nat -> x1 a = x2 a) -> udir 0 = 0.
Proof.
  intros H. rewrite udir_0. apply sum_zero_ext. intros a Ha. unfold zd. rewrite (H a Ha). ring.
Qed.
Lemma near0 : forall c, 0 < c -> locally 0 (fun u => c * u < tiny36).
Proof.
  intros c Hc. pose proof tiny36_pos as T.
  assert (P : 0 < tiny36 / c) by now apply Rdiv_lt_0_compat.
  exists (mkposreal _ P). intros u Hu. unfold ball in Hu; simpl in Hu.
  unfold AbsRing_ball, abs, minus, plus, opp in Hu; simpl in Hu.
  rewrite Ropp_0, Rplus_0_r in Hu. pose proof (Rle_abs u).
  assert (u < tiny36 / c) by lra.
  apply (Rmult_lt_compat_l c) in H0; auto. replace (c * (tiny36 / c)) with tiny36 in H0 by (field; lra).
  auto.
Qed.
Lemma m32_coinc : (forall a, (a < na)%nat -> x1 a = x2 a) ->
  is_derive (fun t => m32_base (l + t * dl) na (fun a => x1 a + t * dx1 a) (fun a => x2 a + t * dx2 a)) 0 0
  /\ Rabs (m32_jvp l na x1 x2 dl dx1 dx2) <= / 10 ^ 36 * Rabs (dl / l).
Proof.
  intros H. split.
  - apply (is_derive_ext (fun t => aphi (AM32 l) (udir t))); [intros; reflexivity|].
    eapply is_derive_eq.
    + apply (is_derive_comp (aphi (AM32 l)) udir); [|now apply udir_d0].
      rewrite udir_00 by auto.
      apply (is_derive_ext_loc (fun _ => (1 + sqrt tiny36) * exp (- sqrt tiny36))).
      * generalize (near0 3 ltac:(lra)). apply filter_imp. intros u Hu.
        unfold aphi. now rewrite Rmax_right by lra.
      * apply (is_derive_const (V := R_NormedModule)).
    + unfold scal; simpl; unfold mult; simpl. ring.
  - assert (Z : forall a, (a < na)%nat -> x1 a / l - x2 a / l = 0) by (intros a Ha; rewrite (H a Ha); ring).
    assert (D : sum na (fun b => (sqrt 3 * (x1 b / l - x2 b / l)) ^ 2) = 0).
    { apply sum_zero_ext. intros a Ha. rewrite (Z a Ha). ring. }
    unfold m32_jvp. rewrite !sum_zero_ext.
    + unfold m32_t2. cbv zeta. rewrite D. pose proof tiny36_pos as T.
      rewrite Rmax_right by lra. rewrite pow2_sqrt by lra. rewrite !Rplus_0_l.
      replace (1 / l * exp (- sqrt tiny36) * tiny36 * dl) with (tiny36 * exp (- sqrt tiny36) * (dl / l))
        by (field; auto).
      rewrite Rabs_mult. apply Rmult_le_compat_r; [apply Rabs_pos|].
      pose proof (exp_neg_le1 (sqrt tiny36) (sqrt_pos _)). pose proof (exp_pos (- sqrt tiny36)).
      rewrite Rabs_right by (apply Rle_ge, Rmult_le_pos; lra). fold tiny36.
      rewrite <- (Rmult_1_r tiny36) at 3. apply Rmult_le_compat_l; lra.
    + intros a Ha. unfold m32_t1, m32_t0. rewrite (Z a Ha). ring.
    + intros a Ha. unfold m32_t0. rewrite (Z a Ha). ring.
Qed.
Lemma m52_coinc : (forall a, (a < na)%nat -> x1 a = x2 a) ->
  is_derive (fun t => m52_base (l + t * dl) na (fun a => x1 a + t * dx1 a) (fun a => x2 a + t * dx2 a)) 0 0
  /\ Rabs (m52_jvp l na x1 x2 dl dx1 dx2) <= / 10 ^ 36 * Rabs (dl / l).
Proof.
  intros H. split.
  - apply (is_derive_ext (fun t => aphi (AM52 l) (udir t))); [intros; reflexivity|].
    eapply is_derive_eq.
    + apply (is_derive_comp (aphi (AM52 l)) udir); [|now apply udir_d0].
      rewrite udir_00 by auto.
      apply (is_derive_ext_loc (fun u => (1 + sqrt tiny36 + 5 * u / 3) * exp (- sqrt tiny36))).
      * generalize (near0 5 ltac:(lra)). apply filter_imp. intros u Hu.
        unfold aphi. now rewrite Rmax_right by lra.
      * auto_derive; [auto|]. reflexivity.
    + unfold scal; simpl; unfold mult; simpl. ring.
  - assert (Z : forall a, (a < na)%nat -> x1 a / l - x2 a / l = 0) by (intros a Ha; rewrite (H a Ha); ring).
    assert (D : sum na (fun b => (sqrt 5 * (x1 b / l - x2 b / l)) ^ 2) = 0).
    { apply sum_zero_ext. intros a Ha. rewrite (Z a Ha). ring. }
    unfold m52_jvp. rewrite !sum_zero_ext.
    + unfold m52_t2. cbv zeta. rewrite D. pose proof tiny36_pos as T.
      rewrite Rmax_right by lra. rewrite pow2_sqrt by lra. rewrite !Rplus_0_l.
      set (d := sqrt tiny36).
      replace (1 / (3 * l) * exp (- d) * tiny36 * (1 + d) * dl)
        with (tiny36 * (/ 3 * ((1 + d) * exp (- d))) * (dl / l)) by (field; auto).
      rewrite Rabs_mult. apply Rmult_le_compat_r; [apply Rabs_pos|].
      assert (0 <= d) by apply sqrt_pos.
      pose proof (exp_1p_neg d ltac:(auto)).
      assert (0 <= (1 + d) * exp (- d)) by (apply Rmult_le_pos; [lra|left; apply exp_pos]).
      rewrite Rabs_right by (apply Rle_ge, Rmult_le_pos; lra). fold tiny36.
      rewrite <- (Rmult_1_r tiny36) at 2. apply Rmult_le_compat_l; lra.
    + intros a Ha. unfold m52_t1, m52_t0. rewrite (Z a Ha). ring.
    + intros a Ha. unfold m52_t0. rewrite (Z a Ha). ring.
Qed.
End Jvp.

(** one lengthscale per feature: two features, unit lengthscales, x1 = (1,0), x2 = (0,0),
    varying the second lengthscale does not change the kernel but the rule is non-zero *)
Lemma m32_vec_wrong : exists (l x1 x2 dl : Vec),
  (forall a, l a <> 0) /\
  is_derive (fun t => m32_base_vec (fun a => l a + t * dl a) 2 x1 x2) 0 0 /\
  m32_jvp_l_vec l 2 x1 x2 dl <> 0.
Proof.
  exists (fun _ => 1), (delta O), (fun _ => 0), (delta 1%nat).
  split; [intros; lra|]. split.
  - apply (is_derive_ext (fun _ => m32_base_vec (fun _ => 1) 2 (delta O) (fun _ => 0))).
    + intros t. unfold m32_base_vec. simpl. unfold delta. simpl.
      replace (0 + (1 / 1 - 0 / 1) * ((1 / 1 - 0 / 1) * 1) + (0 / 1 - 0 / 1) * ((0 / 1 - 0 / 1) * 1)) with 1 by field.
      replace (0 + (1 / (1 + t * 0) - 0 / (1 + t * 0)) * ((1 / (1 + t * 0) - 0 / (1 + t * 0)) * 1) +
        (0 / (1 + t * 1) - 0 / (1 + t * 1)) * ((0 / (1 + t * 1) - 0 / (1 + t * 1)) * 1)) with 1.
      * reflexivity.
      * unfold Rdiv. rewrite !Rmult_0_l, Rmult_0_r, Rplus_0_r. field.
    + apply (is_derive_const (V := R_NormedModule)).
  - unfold m32_jvp_l_vec, m32_t2_vec. simpl. unfold delta. simpl.
    set (d := sqrt _). assert (0 < d).
    { apply sqrt_lt_R0. apply Rlt_le_trans with tiny36; [apply tiny36_pos|apply Rmax_r]. }
    pose proof (exp_pos (- d)).
    assert (0 < exp (- d) * (d * d)) by (apply Rmult_lt_0_compat; [auto|now apply Rmult_lt_0_compat]).
    unfold Rdiv. rewrite Rinv_1. nra.
Qed.
Lemma m52_vec_wrong : exists (l x1 x2 dl : Vec),
  (forall a, l a <> 0) /\
  is_derive (fun t => m52_base_vec (fun a => l a + t * dl a) 2 x1 x2) 0 0 /\
  m52_jvp_l_vec l 2 x1 x2 dl <> 0.
Proof.
  exists (fun _ => 1), (delta O), (fun _ => 0), (delta 1%nat).
  split; [intros; lra|]. split.
  - apply (is_derive_ext (fun _ => m52_base_vec (fun _ => 1) 2 (delta O) (fun _ => 0))).
    + intros t. unfold m52_base_vec. simpl. unfold delta. simpl.
      replace (0 + (1 / 1 - 0 / 1) * ((1 / 1 - 0 / 1) * 1) + (0 / 1 - 0 / 1) * ((0 / 1 - 0 / 1) * 1)) with 1 by field.
      replace (0 + (1 / (1 + t * 0) - 0 / (1 + t * 0)) * ((1 / (1 + t * 0) - 0 / (1 + t * 0)) * 1) +
        (0 / (1 + t * 1) - 0 / (1 + t * 1)) * ((0 / (1 + t * 1) - 0 / (1 + t * 1)) * 1)) with 1.
      * reflexivity.
      * unfold Rdiv. rewrite !Rmult_0_l, Rmult_0_r, Rplus_0_r. field.
    + apply (is_derive_const (V := R_NormedModule)).
  - unfold m52_jvp_l_vec, m52_t2_vec. simpl. unfold delta. simpl.
    set (d := sqrt _). assert (0 < d).
    { apply sqrt_lt_R0. apply Rlt_le_trans with tiny36; [apply tiny36_pos|apply Rmax_r]. }
    pose proof (exp_pos (- d)).
    assert (0 < exp (- d) * (d * d) * (1 + d)).
    { apply Rmult_lt_0_compat; [|lra]. apply Rmult_lt_0_compat; [auto|now apply Rmult_lt_0_compat]. }
    unfold Rdiv. rewrite Rmult_1_r. nra.
Qed.
