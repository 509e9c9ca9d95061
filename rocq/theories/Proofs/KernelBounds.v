(** Bounds and monotonicity of stationary kernels; batched versus single-sample kernels;
    distances; periodicity; centring. *)
From Coq Require Import Reals Lra Lia Arith List FunctionalExtensionality ZArith.
From Coquelicot Require Import Coquelicot.
From Verif Require Import Base.Sums Base.Mat Base.PSD Model.Arrays Model.Distances Model.Kernelizers
  Model.Kernels Model.KernelOps Spec.Partial Spec.KernelSpec Proofs.Deriv Proofs.KernelAtoms Proofs.KernelJets
  Proofs.KernelMethods Proofs.KernelDerivs Proofs.KernelSym.
Open Scope R_scope.

(** ** scalar functions *)
Lemma exp_ge_1p : forall d, 1 + d <= exp d.
Proof. intros. apply exp_ineq1_le. Qed.
Lemma exp_neg_mul : forall d, exp (- d) * exp d = 1.
Proof. intros. rewrite <- exp_plus. replace (- d + d) with 0 by ring. apply exp_0. Qed.

(** MVT in the form needed *)
Lemma mvt_le : forall (f df : R -> R) a b, a <= b ->
  (forall x, a <= x <= b -> is_derive f x (df x)) ->
  (forall x, a <= x <= b -> 0 <= df x) -> f a <= f b.
Proof.
  intros f df a b Hab Hd Hp.
  destruct (MVT_gen f a b df) as [c [Hc E]].
  - intros x Hx. rewrite Rmin_left, Rmax_right in Hx by auto. apply Hd; lra.
  - intros x Hx. rewrite Rmin_left, Rmax_right in Hx by auto.
    apply continuity_pt_filterlim. apply (ex_derive_continuous f x). exists (df x). now apply Hd.
  - rewrite Rmin_left, Rmax_right in Hc by auto. specialize (Hp c Hc).
    assert (0 <= df c * (b - a)) by (apply Rmult_le_pos; lra). lra.
Qed.
Definition g32 (d : R) := (1 + d) * exp (- d).
Definition g52 (d : R) := (1 + d + d ^ 2 / 3) * exp (- d).
Lemma g32_decr : forall a b, 0 <= a <= b -> g32 b <= g32 a.
Proof.
  intros a b H.
  assert (G : - g32 a <= - g32 b); [|lra].
  apply (mvt_le (fun d => - g32 d) (fun d => d * exp (- d))); try lra.
  - intros x Hx. unfold g32. auto_derive; auto. ring.
  - intros x Hx. apply Rmult_le_pos; [lra|]. left; apply exp_pos.
Qed.
Lemma exp_neg_le1 : forall d, 0 <= d -> exp (- d) <= 1.
Proof.
  intros d Hd. rewrite <- exp_0. destruct Hd as [Hd|<-].
  - left. apply exp_increasing. lra.
  - right. f_equal. ring.
Qed.
Lemma g32_lip : forall a b, 0 <= a <= b -> g32 a - g32 b <= (b ^ 2 - a ^ 2) / 2.
Proof.
  intros a b H.
  assert (G : g32 a + a ^ 2 / 2 <= g32 b + b ^ 2 / 2); [|lra].
  apply (mvt_le (fun d => g32 d + d ^ 2 / 2) (fun d => d * (1 - exp (- d)))); try lra.
  - intros x Hx. unfold g32. auto_derive; auto. field.
  - intros x Hx. apply Rmult_le_pos; [lra|]. pose proof (exp_neg_le1 x). lra.
Qed.
Lemma g52_decr : forall a b, 0 <= a <= b -> g52 b <= g52 a.
Proof.
  intros a b H.
  assert (G : - g52 a <= - g52 b); [|lra].
  apply (mvt_le (fun d => - g52 d) (fun d => d / 3 * (1 + d) * exp (- d))); try lra.
  - intros x Hx. unfold g52. auto_derive; auto. field.
  - intros x Hx. apply Rmult_le_pos; [|left; apply exp_pos]. apply Rmult_le_pos; lra.
Qed.
Lemma exp_1p_neg : forall d, 0 <= d -> (1 + d) * exp (- d) <= 1.
Proof.
  intros d Hd. pose proof (exp_ge_1p d). pose proof (exp_neg_mul d).
  pose proof (exp_pos (- d)). 
  apply Rle_trans with (exp d * exp (- d)); [|lra]. apply Rmult_le_compat_r; lra.
Qed.
Lemma g52_lip : forall a b, 0 <= a <= b -> g52 a - g52 b <= (b ^ 2 - a ^ 2) / 6.
Proof.
  intros a b H.
  assert (G : g52 a + a ^ 2 / 6 <= g52 b + b ^ 2 / 6); [|lra].
  apply (mvt_le (fun d => g52 d + d ^ 2 / 6) (fun d => d / 3 * (1 - (1 + d) * exp (- d)))); try lra.
  - intros x Hx. unfold g52. auto_derive; auto. field.
  - intros x Hx. apply Rmult_le_pos; [lra|]. pose proof (exp_1p_neg x). lra.
Qed.
Lemma exp_lip : forall a b, 0 <= a <= b -> 0 <= exp (- a) - exp (- b) <= b - a.
Proof.
  intros a b H. split.
  - destruct (Req_dec a b) as [->|N]; [lra|].
    assert (exp (- b) < exp (- a)) by (apply exp_increasing; lra). lra.
  - assert (G : exp (- a) + a <= exp (- b) + b); [|lra].
    apply (mvt_le (fun d => exp (- d) + d) (fun d => 1 - exp (- d))); try lra.
    + intros x Hx. auto_derive; auto. ring.
    + intros x Hx. pose proof (exp_neg_le1 x). lra.
Qed.
Lemma g32_0 : g32 0 = 1.
Proof. unfold g32. rewrite Ropp_0, exp_0. ring. Qed.
Lemma g52_0 : g52 0 = 1.
Proof. unfold g52. rewrite Ropp_0, exp_0. field. Qed.
Lemma g32_pos : forall d, 0 <= d -> 0 < g32 d.
Proof. intros. apply Rmult_lt_0_compat; [lra|apply exp_pos]. Qed.
Lemma g52_pos : forall d, 0 <= d -> 0 < g52 d.
Proof. intros. apply Rmult_lt_0_compat; [|apply exp_pos]. pose proof (pow2_ge_0 d). lra. Qed.

(** strict versions *)
Lemma g_strict : forall (g dg : R -> R) a b, (forall x, is_derive g x (dg x)) ->
  (forall x, 0 <= x -> dg x <= 0) -> (forall x, 0 < x -> dg x < 0) -> 0 <= a < b -> g b < g a.
Proof.
  intros g dg a b Hd Hn Hs H.
  set (m := (a + b) / 2).
  assert (Hm : a < m < b) by (unfold m; lra).
  assert (M : forall p q, p < q -> exists c, p <= c <= q /\ g q - g p = dg c * (q - p)).
  { intros p q Hpq. destruct (MVT_gen g p q dg) as [c [Hc E]].
    - intros x Hx. apply Hd.
    - intros x Hx. apply continuity_pt_filterlim. apply (ex_derive_continuous g x).
      exists (dg x). apply Hd.
    - rewrite Rmin_left, Rmax_right in Hc by lra. eauto. }
  destruct (M m b) as [c2 [Hc2 E2]]; [lra|].
  destruct (M a m) as [c3 [Hc3 E3]]; [lra|].
  specialize (Hs c2 ltac:(lra)). specialize (Hn c3 ltac:(lra)). nra.
Qed.
Lemma g32_strict : forall a b, 0 <= a < b -> g32 b < g32 a.
Proof.
  intros a b. apply (g_strict g32 (fun d => - d * exp (- d))).
  - intros x. unfold g32. auto_derive; auto. ring.
  - intros x Hx. pose proof (exp_pos (- x)). nra.
  - intros x Hx. pose proof (exp_pos (- x)). nra.
Qed.
Lemma g52_strict : forall a b, 0 <= a < b -> g52 b < g52 a.
Proof.
  intros a b. apply (g_strict g52 (fun d => - (d / 3 * (1 + d)) * exp (- d))).
  - intros x. unfold g52. auto_derive; auto. field.
  - intros x Hx. pose proof (exp_pos (- x)). assert (0 <= x / 3 * (1 + x)) by (apply Rmult_le_pos; lra). nra.
  - intros x Hx. pose proof (exp_pos (- x)). assert (0 < x / 3 * (1 + x)) by (apply Rmult_lt_0_compat; lra). nra.
Qed.

(** ** bounds on the batched and the single-sample kernels *)
Lemma dd_nonneg : forall c j u, 0 <= dd c j u.
Proof. intros. apply sqrt_pos. Qed.
Lemma dd_lt : forall c j u v, 0 < c -> 0 <= j -> 0 <= u < v -> dd c j u < dd c j v.
Proof.
  intros. unfold dd. apply sqrt_lt_1.
  - apply Rmult_le_pos; lra.
  - apply Rmult_le_pos; lra.
  - apply Rmult_lt_compat_l; lra.
Qed.

Lemma fphi_stat_lt : forall a u v, stationary a -> 0 <= u < v -> fphi a v < fphi a u.
Proof.
  intros a u v Hs H. pose proof jit12_pos.
  destruct a; simpl in *; try contradiction.
  - apply exp_increasing. lra.
  - unfold m12_phi. apply exp_increasing.
    pose proof (dd_lt 1 jit12 u v ltac:(lra) ltac:(lra) H). lra.
  - apply g32_strict. split; [apply dd_nonneg|]. apply dd_lt; lra.
  - apply g52_strict. split; [apply dd_nonneg|]. apply dd_lt; lra.
  - apply exp_increasing. lra.
Qed.
Lemma fphi_stat_pos : forall a u, stationary a -> 0 <= u -> 0 < fphi a u <= 1.
Proof.
  intros a u Hs H. pose proof jit12_pos.
  destruct a; simpl in *; try contradiction.
  - split; [apply exp_pos|]. apply exp_neg_le1. lra.
  - split; [apply exp_pos|]. apply exp_neg_le1. apply dd_nonneg.
  - split; [apply g32_pos, dd_nonneg|]. rewrite <- g32_0. apply g32_decr.
    split; [lra|apply dd_nonneg].
  - split; [apply g52_pos, dd_nonneg|]. rewrite <- g52_0. apply g52_decr.
    split; [lra|apply dd_nonneg].
  - split; [apply exp_pos|]. replace (-4 * u) with (- (4 * u)) by ring. apply exp_neg_le1. lra.
Qed.
Lemma au_nonneg : forall nf ad a x y, stationary a -> 0 <= au nf ad a x y.
Proof.
  intros nf ad a x y Hs. unfold au. destruct a; simpl in *; try contradiction;
    try apply usum_sq_nonneg.
  unfold usum. apply sum_nonneg. intros. rewrite h_per_eq. unfold Rdiv.
  apply Rmult_le_pos; [apply pow2_ge_0|]. left. now apply Rinv_0_lt_compat.
Qed.
Lemma stat_bounds : forall nf ad a x y, stationary a -> 0 < kernel_at nf (KAtom ad a) x y <= 1.
Proof.
  intros. rewrite kernel_at_atom. apply fphi_stat_pos; auto. now apply au_nonneg.
Qed.
Lemma sq_kind_au : forall nf ad a l x y, sq_scale a = Some l -> au nf ad a x y = sqd nf ad l x y.
Proof. intros nf ad a l x y H. destruct a; simpl in H; inversion H; subst; reflexivity. Qed.
Lemma stat_mono : forall nf ad a l x y x' y', sq_scale a = Some l ->
  sqd nf ad l x y < sqd nf ad l x' y' ->
  kernel_at nf (KAtom ad a) x' y' < kernel_at nf (KAtom ad a) x y.
Proof.
  intros nf ad a l x y x' y' Hl H. rewrite !kernel_at_atom. unfold fkap, kap.
  fold (au nf ad a x' y') (au nf ad a x y). rewrite !(sq_kind_au nf ad a l) by auto.
  apply fphi_stat_lt.
  - destruct a; simpl in *; try discriminate; auto.
  - split; auto. apply (usum_sq_nonneg (dims nf ad) l).
Qed.
Lemma stat_dist : forall nf ad a l x y x' y', sq_scale a = Some l ->
  sqd nf ad l x y = sqd nf ad l x' y' ->
  kernel_at nf (KAtom ad a) x y = kernel_at nf (KAtom ad a) x' y'.
Proof.
  intros nf ad a l x y x' y' Hl H. rewrite !kernel_at_atom. unfold fkap, kap.
  fold (au nf ad a x' y') (au nf ad a x y). now rewrite !(sq_kind_au nf ad a l), H by auto.
Qed.

(** ** single-sample versus batched *)
Lemma tiny_max : forall c u, 0 < c -> 0 <= u -> 1 <= c ->
  Rmax (c * u) tiny36 <= c * (u + jit12).
Proof.
  intros c u Hc Hu H1. pose proof tiny36_lt_jit12. pose proof jit12_pos.
  apply Rmax_lub; nra.
Qed.
Lemma sqrt_sub_le : forall c u, 1 <= c -> 0 <= u ->
  0 <= sqrt (Rmax (c * u) tiny36) <= dd c jit12 u.
Proof.
  intros c u Hc Hu. split; [apply sqrt_pos|].
  unfold dd. apply sqrt_le_1_alt. apply tiny_max; lra.
Qed.
Lemma sqrt_sq_sub : forall c u, 1 <= c -> 0 <= u ->
  dd c jit12 u ^ 2 - sqrt (Rmax (c * u) tiny36) ^ 2 <= c * jit12.
Proof.
  intros c u Hc Hu. pose proof jit12_pos. pose proof tiny36_pos.
  unfold dd. rewrite !pow2_sqrt.
  - pose proof (Rmax_l (c * u) tiny36). lra.
  - apply Rle_trans with tiny36; [lra|apply Rmax_r].
  - apply Rmult_le_pos; lra.
Qed.
Lemma jit6_sqrt : sqrt jit12 = / 10 ^ 6.
Proof.
  unfold jit12. replace (/ 10 ^ 12) with ((/ 10 ^ 6) * (/ 10 ^ 6)) by (field).
  apply sqrt_square. left. apply Rinv_0_lt_compat. lra.
Qed.
Lemma sqrt_plus_le : forall a b, 0 <= a -> 0 <= b -> sqrt (a + b) <= sqrt a + sqrt b.
Proof.
  intros a b Ha Hb. pose proof (sqrt_pos a). pose proof (sqrt_pos b).
  apply Rsqr_incr_0_var; [|lra]. rewrite Rsqr_sqrt by lra.
  unfold Rsqr. pose proof (sqrt_sqrt a Ha). pose proof (sqrt_sqrt b Hb). nra.
Qed.
Lemma m12_err : forall u, 0 <= u ->
  0 <= exp (- sqrt (Rmax u tiny36)) - m12_phi 1 jit12 u <= / 10 ^ 6.
Proof.
  intros u Hu. pose proof jit12_pos.
  assert (A : 0 <= sqrt (Rmax u tiny36) <= dd 1 jit12 u).
  { pose proof (sqrt_sub_le 1 u ltac:(lra) Hu) as Q. now rewrite Rmult_1_l in Q. }
  unfold m12_phi. pose proof (exp_lip _ _ A).
  assert (B : dd 1 jit12 u <= sqrt (Rmax u tiny36) + / 10 ^ 6).
  { unfold dd. rewrite Rmult_1_l, <- jit6_sqrt.
    apply Rle_trans with (sqrt u + sqrt jit12).
    - apply sqrt_plus_le; lra.
    - apply Rplus_le_compat_r. apply sqrt_le_1_alt. apply Rmax_l. }
  lra.
Qed.
Lemma m32_err : forall u, 0 <= u ->
  0 <= g32 (sqrt (Rmax (3 * u) tiny36)) - m32_phi 3 jit12 u <= 3 / 2 * / 10 ^ 12.
Proof.
  intros u Hu. pose proof (sqrt_sub_le 3 u ltac:(lra) Hu) as A.
  change (m32_phi 3 jit12 u) with (g32 (dd 3 jit12 u)).
  pose proof (g32_decr _ _ A). pose proof (g32_lip _ _ A).
  pose proof (sqrt_sq_sub 3 u ltac:(lra) Hu). unfold jit12 in *. lra.
Qed.
Lemma m52_err : forall u, 0 <= u ->
  - / 10 ^ 36 <= aphi (AM52 1) u - m52_phi 5 jit12 u <= / 10 ^ 12.
Proof.
  intros u Hu. pose proof (sqrt_sub_le 5 u ltac:(lra) Hu) as A.
  change (m52_phi 5 jit12 u) with (g52 (dd 5 jit12 u)).
  pose proof (g52_decr _ _ A) as D1. pose proof (g52_lip _ _ A) as D2.
  pose proof (sqrt_sq_sub 5 u ltac:(lra) Hu) as D3. simpl aphi.
  set (d := sqrt (Rmax (5 * u) tiny36)) in *.
  assert (E : (1 + d + 5 * u / 3) * exp (- d) = g52 d - (d ^ 2 - 5 * u) / 3 * exp (- d)).
  { unfold g52. field. }
  assert (F : 0 <= d ^ 2 - 5 * u <= tiny36).
  { unfold d. pose proof tiny36_pos. rewrite pow2_sqrt.
    - unfold Rmax. destruct (Rle_dec (5 * u) tiny36); lra.
    - apply Rle_trans with tiny36; [lra|apply Rmax_r]. }
  pose proof (exp_pos (- d)). pose proof (exp_neg_le1 d ltac:(lra)).
  assert (0 <= (d ^ 2 - 5 * u) / 3 * exp (- d) <= tiny36 / 3).
  { split; [apply Rmult_le_pos; lra|].
    apply Rle_trans with ((d ^ 2 - 5 * u) / 3 * 1); [apply Rmult_le_compat_l; lra|lra]. }
  rewrite E. unfold jit12, tiny36 in *. lra.
Qed.
Lemma se_err : forall u, 0 <= u -> 0 <= exp (- u) - exp (- (u + jit12)) <= / 10 ^ 12.
Proof.
  intros u Hu. pose proof jit12_pos.
  pose proof (exp_lip u (u + jit12) ltac:(lra)). unfold jit12 in *. lra.
Qed.
Lemma atom_err_bound : forall nf ad a x y,
  Rabs (kernel_at nf (KAtom ad a) x y - kernel_base nf ad a x y) <= atom_err a.
Proof.
  intros nf ad a x y. rewrite kernel_at_atom, base_kap. unfold fkap, kap.
  pose proof (fun l => usum_sq_nonneg (dims nf ad) l x y) as N.
  destruct a; simpl; try (rewrite Rminus_eq_0, Rabs_R0; lra).
  - pose proof (se_err _ (N l)). apply Rabs_le. lra.
  - pose proof (m12_err _ (N l)). apply Rabs_le. lra.
  - pose proof (m32_err _ (N l)) as Q. unfold g32 in Q. apply Rabs_le. lra.
  - pose proof (m52_err _ (N l)) as Q. simpl in Q. apply Rabs_le. lra.
Qed.
Lemma kerr_bound : forall nf k x y,
  Rabs (kernel_at nf k x y - kb nf k x y) <= kerr nf k x y.
Proof.
  intros nf k x y. induction k as [ad a|k1 IH1 k2 IH2|k1 IH1 k2 IH2].
  - apply atom_err_bound.
  - rewrite kernel_at_sum. simpl.
    replace (_ - _) with ((kernel_at nf k1 x y - kb nf k1 x y) + (kernel_at nf k2 x y - kb nf k2 x y)) by ring.
    eapply Rle_trans; [apply Rabs_triang|]. lra.
  - rewrite kernel_at_prod. simpl.
    set (p := kernel_at nf k1 x y) in *. set (q := kernel_at nf k2 x y) in *.
    set (b := kb nf k1 x y) in *. set (c := kb nf k2 x y) in *.
    replace (p * q - b * c) with ((p - b) * c + b * (q - c) + (p - b) * (q - c)) by ring.
    eapply Rle_trans; [apply Rabs_triang|]. apply Rplus_le_compat.
    + eapply Rle_trans; [apply Rabs_triang|]. rewrite !Rabs_mult. apply Rplus_le_compat.
      * apply Rmult_le_compat_r; auto. apply Rabs_pos.
      * apply Rmult_le_compat_l; auto. apply Rabs_pos.
    + rewrite Rabs_mult. apply Rmult_le_compat; auto; apply Rabs_pos.
Qed.
Lemma kerr_exact : forall nf k x y, all_atoms (fun _ a => unjittered a) k ->
  kernel_at nf k x y = kb nf k x y.
Proof.
  intros nf k x y. induction k as [ad a|k1 IH1 k2 IH2|k1 IH1 k2 IH2]; intros H.
  - rewrite kernel_at_atom. simpl. rewrite base_kap. unfold fkap, kap.
    destruct a; simpl in *; try contradiction; reflexivity.
  - destruct H. rewrite kernel_at_sum. simpl. now rewrite IH1, IH2.
  - destruct H. rewrite kernel_at_prod. simpl. now rewrite IH1, IH2.
Qed.
Lemma se_factor : forall nf ad l x y,
  kernel_at nf (KAtom ad (ASE l)) x y = exp (- jit12) * kernel_base nf ad (ASE l) x y.
Proof.
  intros. rewrite kernel_at_atom, base_kap. unfold fkap, kap. simpl.
  rewrite <- exp_plus. f_equal. ring.
Qed.

(** ** distances *)
Lemma squared_distances_val : forall na X Y i j,
  squared_distances na X Y i j = sum na (fun a => (X i a - Y j a) ^ 2) + / 10 ^ 12.
Proof.
  intros. unfold squared_distances, jit12. f_equal.
  rewrite <- sum_scal_l, <- sum_minus, <- sum_plus. apply sum_ext; intros; ring.
Qed.
Lemma euclidean_val : forall na x y,
  euclidean_distance na x y = sqrt (sum na (fun a => (x a - y a) ^ 2)).
Proof.
  intros na x y. unfold euclidean_distance.
  destruct (Req_EM_T (sum na (fun a => (x a - y a) ^ 2)) 0) as [E|E]; auto.
  rewrite E, sqrt_0. apply sum_zero_ext. intros a Ha.
  assert (Z : (x a - y a) ^ 2 = 0).
  { apply (sum_nonneg_zero na (fun a => (x a - y a) ^ 2)); auto. intros; apply pow2_ge_0. }
  assert (x a - y a = 0) by nra. rewrite H. apply Rabs_R0.
Qed.
