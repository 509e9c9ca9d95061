(** Symmetry, dependence on active features, bounds and batched-vs-single agreement. *)
From Coq Require Import Reals Lra Lia Arith List FunctionalExtensionality.
From Coquelicot Require Import Coquelicot.
From Verif Require Import Base.Sums Base.Mat Model.Arrays Model.Distances Model.Kernelizers
  Model.Kernels Spec.Partial Spec.KernelSpec Proofs.Deriv Proofs.KernelAtoms Proofs.KernelJets
  Proofs.Loops Proofs.KernelMethods Proofs.Contraction Proofs.KernelDerivs.
Open Scope R_scope.

Lemma ah_sym : forall a x y, ah a x y = ah a y x.
Proof.
  destruct a; intros; simpl; unfold h_mul, h_sq; try ring.
  unfold h_per. now rewrite Rabs_minus_sym.
Qed.
Lemma ahxy_swap : forall a x y, ahy a x y = ahx a y x.
Proof.
  destruct a; intros; simpl; unfold h_sq_x, h_sq_y; try ring.
  unfold h_per_y, h_per_x.
  replace (PI * (y - x) / p) with (- (PI * (x - y) / p)) by (unfold Rdiv; ring).
  rewrite sin_neg, cos_neg. unfold Rdiv. ring.
Qed.
Lemma ahxy_sym : forall a x y, ahxy a x y = ahxy a y x.
Proof.
  destruct a; intros; simpl; unfold h_sq_xy; auto.
  unfold h_per_xy.
  replace (PI * (y - x) / p) with (- (PI * (x - y) / p)) by (unfold Rdiv; ring).
  rewrite sin_neg, cos_neg. unfold Rdiv. ring.
Qed.
Lemma au_sym : forall nf ad a x y, au nf ad a x y = au nf ad a y x.
Proof. intros. unfold au, usum. apply sum_ext; intros. apply ah_sym. Qed.
Lemma aS_swap : forall nf ad a x y f, aS1 nf ad a x y f = aS0 nf ad a y x f.
Proof. intros. unfold aS1, aS0, S1, S0. apply sum_ext; intros. now rewrite ahxy_swap. Qed.
Lemma aS01_swap : forall nf ad a x y f e, aS01 nf ad a x y f e = aS01 nf ad a y x e f.
Proof. intros. unfold aS01, S01. apply sum_ext; intros. rewrite (ahxy_sym a). ring. Qed.
Lemma fkap_sym : forall nf ad a x y, fkap nf ad a x y = fkap nf ad a y x.
Proof. intros. unfold fkap, kap. f_equal. apply au_sym. Qed.
Lemma kernel_at_sym : forall nf k x y, kernel_at nf k x y = kernel_at nf k y x.
Proof.
  intros nf k x y. induction k as [ad a|k1 IH1 k2 IH2|k1 IH1 k2 IH2].
  - rewrite !kernel_at_atom. apply fkap_sym.
  - rewrite !kernel_at_sum. congruence.
  - rewrite !kernel_at_prod. congruence.
Qed.
Lemma kk_sym : forall nf k X1 X2 s t, kk nf k X1 X2 s t = kk nf k X2 X1 t s.
Proof. intros. rewrite !kk_at. apply kernel_at_sym. Qed.

(** d1k is the transpose of d0k with the arguments exchanged, at every index *)
Lemma base_sym : forall nf ad a x y, kernel_base nf ad a x y = kernel_base nf ad a y x.
Proof. intros. rewrite !base_kap. unfold kap. f_equal. apply au_sym. Qed.
Lemma m32_t0_neg : forall l na x y a, m32_t1 l na x y a = m32_t0 l na y x a.
Proof.
  intros. unfold m32_t1, m32_t0. cbv zeta.
  rewrite (sum_ext na (fun b => (sqrt 3 * (y b / l - x b / l)) ^ 2)
    (fun b => (sqrt 3 * (x b / l - y b / l)) ^ 2)) by (intros; ring).
  unfold Rdiv. ring.
Qed.
Lemma m52_t0_neg : forall l na x y a, m52_t1 l na x y a = m52_t0 l na y x a.
Proof.
  intros. unfold m52_t1, m52_t0. cbv zeta.
  rewrite (sum_ext na (fun b => (sqrt 5 * (y b / l - x b / l)) ^ 2)
    (fun b => (sqrt 5 * (x b / l - y b / l)) ^ 2)) by (intros; ring).
  unfold Rdiv. ring.
Qed.
Lemma jac_swap : forall nf ad a x y f, jac1 nf ad a x y f = jac0 nf ad a y x f.
Proof.
  intros. unfold jac1, jac0. destruct a;
    try (apply Derive_ext; intros; apply base_sym);
    apply sum_ext; intros; f_equal; auto using m32_t0_neg, m52_t0_neg.
Qed.
Lemma sqdist_sym : forall ds l X1 X2 s t,
  squared_distances (length ds) (scaled l (gatherM ds X1)) (scaled l (gatherM ds X2)) s t
  = squared_distances (length ds) (scaled l (gatherM ds X2)) (scaled l (gatherM ds X1)) t s.
Proof.
  intros. rewrite !sqdist_usum. f_equal. unfold usum. apply sum_ext; intros. unfold h_sq. ring.
Qed.
Lemma scat_ext : forall ds v w f, (forall a, v a = w a) -> scat ds v f = scat ds w f.
Proof. intros. unfold scat. destruct (find_ix f ds); auto. Qed.
Lemma poly_c1_sym : forall d off ds X1 X2 s t, poly_c1 d off ds X1 X2 s t = poly_c1 d off ds X2 X1 t s.
Proof.
  intros. rewrite !poly_u. do 3 f_equal. unfold usum. apply sum_ext; intros. unfold h_mul; ring.
Qed.
Lemma atom_d1k_tr : forall nf ad a X1 X2 s c,
  atom_d1k nf ad a X1 X2 s c = atom_d0k nf ad a X2 X1 c s.
Proof.
  intros. destruct a; unfold atom_d1k, atom_d0k;
    try (unfold grad1_kernelize, grad0_kernelize, rs_col, rs_row; apply jac_swap).
  - reflexivity.
  - reflexivity.
  - unfold poly_d1k, poly_d0k, rs_col, rs_row. apply scat_ext; intros. now rewrite poly_c1_sym.
  - unfold poly_d1k, poly_d0k, rs_col, rs_row. apply scat_ext; intros. now rewrite poly_c1_sym.
  - unfold m52_d1k, m52_d0k, rs_col, rs_row. apply scat_ext; intros.
    unfold m52_d. rewrite sqdist_sym. unfold zdiff. unfold Rdiv. ring.
Qed.
Lemma d1k_tr : forall nf k X1 X2 s c, d1k nf k X1 X2 s c = d0k nf k X2 X1 c s.
Proof.
  induction k as [ad a|k1 IH1 k2 IH2|k1 IH1 k2 IH2]; intros; simpl.
  - apply atom_d1k_tr.
  - now rewrite IH1, IH2.
  - rewrite IH1, IH2. unfold rep_row, rep_col. now rewrite (kk_sym nf k1), (kk_sym nf k2).
Qed.

(** regular pairs of points: not exactly on the boundary of the Matern clamps *)
Lemma atom_d01k_tr : forall nf ad a X1 X2 s f t e,
  ls_ok a -> ad_ok nf ad -> (f < nf)%nat -> (e < nf)%nat ->
  regular_pair nf ad a (X1 s) (X2 t) ->
  atom_d01k nf ad a X1 X2 (s * nf + f)%nat (t * nf + e)%nat
  = atom_d01k nf ad a X2 X1 (t * nf + e)%nat (s * nf + f)%nat.
Proof.
  intros nf ad a X1 X2 s f t e Hl Had Hf He Hr.
  assert (R1 : areg a (au nf ad a (X1 s) (X2 t))) by (destruct a; simpl; auto).
  assert (R2 : areg a (au nf ad a (X2 t) (X1 s))) by (rewrite au_sym; auto).
  rewrite !atom_d01k_reg by (auto using ls_atom_l, ad_ok_nodup).
  rewrite (au_sym nf ad a (X2 t)), !aS_swap, (aS01_swap nf ad a (X2 t)). ring.
Qed.
Lemma d01k_tr : forall nf k X1 X2 s f t e,
  ls_nonzero k -> wf nf k -> (f < nf)%nat -> (e < nf)%nat ->
  all_atoms (fun ad a => regular_pair nf ad a (X1 s) (X2 t)) k ->
  d01k nf k X1 X2 (s * nf + f)%nat (t * nf + e)%nat
  = d01k nf k X2 X1 (t * nf + e)%nat (s * nf + f)%nat.
Proof.
  intros nf k X1 X2 s f t e.
  induction k as [ad a|k1 IH1 k2 IH2|k1 IH1 k2 IH2]; intros L W Hf He Hr; simpl.
  - now apply atom_d01k_tr.
  - destruct L, W, Hr. now rewrite IH1, IH2.
  - destruct L, W, Hr. rewrite IH1, IH2 by auto. unfold rep_row, rep_col.
    rewrite !blk_div by auto. rewrite !d1k_tr, (kk_sym nf k1), (kk_sym nf k2). ring.
Qed.
Lemma regular_pair_refl : forall nf ad a x, regular_pair nf ad a x x.
Proof.
  intros. pose proof tiny36_pos.
  assert (Z : forall l, sum (length (active nf ad)) (fun i =>
     (gather (active nf ad) x i / l - gather (active nf ad) x i / l) ^ 2) = 0).
  { intros. apply sum_zero_ext. intros. ring. }
  destruct a; simpl; auto; unfold sqd; rewrite Z; lra.
Qed.

(** ** Only active features matter *)
Lemma au_active : forall nf ad a x x' y y',
  (forall d, In d (active nf ad) -> x d = x' d) -> (forall d, In d (active nf ad) -> y d = y' d) ->
  au nf ad a x y = au nf ad a x' y'.
Proof.
  intros. unfold au, usum. apply sum_ext; intros i Hi. unfold gather.
  rewrite H, H0; auto; now apply nth_In.
Qed.
Lemma kernel_active : forall nf k x x' y y',
  all_atoms (fun ad _ => (forall d, In d (active nf ad) -> x d = x' d)
     /\ (forall d, In d (active nf ad) -> y d = y' d)) k ->
  kernel_at nf k x y = kernel_at nf k x' y'.
Proof.
  intros nf k x x' y y'. induction k as [ad a|k1 IH1 k2 IH2|k1 IH1 k2 IH2]; intros H.
  - destruct H. rewrite !kernel_at_atom. unfold fkap, kap. f_equal. now apply au_active.
  - destruct H. rewrite !kernel_at_sum. f_equal; auto.
  - destruct H. rewrite !kernel_at_prod. f_equal; auto.
Qed.
Lemma S_inactive : forall ds h x y f, ~ In f ds -> S0 ds h x y f = 0.
Proof.
  intros ds h x y f H. apply sum_zero_ext. intros a Ha.
  rewrite delta_diff; [ring|]. intros <-. apply H. now apply nth_In.
Qed.
Lemma scat_inactive : forall ds v f, ~ In f ds -> scat ds v f = 0.
Proof.
  intros ds v f H. unfold scat. destruct (find_ix f ds) eqn:E; auto.
  destruct (find_ix_spec _ _ _ E) as [Ha <-]. exfalso. apply H. now apply nth_In.
Qed.
Lemma jac0_inactive : forall nf ad a x y f, ~ In f (dims nf ad) -> jac0 nf ad a x y f = 0.
Proof.
  intros nf ad a x y f H.
  assert (G : Derive (fun t => kernel_base nf ad a (upd x f t) y) (x f) = 0).
  { rewrite (Derive_ext _ (fun _ => kernel_base nf ad a x y)); [apply Derive_const|].
    intros t. rewrite !base_kap. unfold kap. f_equal. apply (au_active nf ad a).
    - intros d Hd. apply upd_other. intros ->. apply H. exact Hd.
    - auto. }
  unfold jac0. destruct a; auto; apply sum_zero_ext; intros i Hi;
    (rewrite delta_diff; [ring|intros <-; apply H; now apply nth_In]).
Qed.
Lemma atom_d0k_inactive : forall nf ad a X1 X2 s f t, (f < nf)%nat -> ~ In f (dims nf ad) ->
  atom_d0k nf ad a X1 X2 (s * nf + f)%nat t = 0.
Proof.
  intros nf ad a X1 X2 s f t Hf H.
  destruct a; unfold atom_d0k;
   try (unfold grad0_kernelize, rs_row; rewrite blk_div, blk_mod by auto; now apply jac0_inactive);
   try (unfold linear_d0k, poly_d0k, m52_d0k, rs_row, tile_row; rewrite ?blk_div, ?blk_mod by auto;
        now apply scat_inactive).
  reflexivity.
Qed.
Lemma d0k_inactive : forall nf k X1 X2 s f t, (f < nf)%nat ->
  all_atoms (fun ad _ => ~ In f (active nf ad)) k ->
  d0k nf k X1 X2 (s * nf + f)%nat t = 0.
Proof.
  induction k as [ad a|k1 IH1 k2 IH2|k1 IH1 k2 IH2]; intros X1 X2 s f t Hf H; simpl.
  - now apply atom_d0k_inactive.
  - destruct H. rewrite IH1, IH2 by auto. ring.
  - destruct H. rewrite IH1, IH2 by auto. ring.
Qed.
Lemma atom_d01k_inactive : forall nf ad a X1 X2 s f t e, (f < nf)%nat -> (e < nf)%nat ->
  ~ In f (dims nf ad) ->
  atom_d01k nf ad a X1 X2 (s * nf + f)%nat (t * nf + e)%nat = 0.
Proof.
  intros nf ad a X1 X2 s f t e Hf He H.
  assert (G : grad01_kernelize nf (hess01 nf ad a) X1 X2 (s * nf + f)%nat (t * nf + e)%nat = 0).
  { unfold grad01_kernelize, rs_4. rewrite !blk_div, !blk_mod by auto. unfold hess01.
    rewrite (Derive_ext _ (fun _ => 0)); [apply Derive_const|]. intros. now apply jac0_inactive. }
  assert (Z : forall q, sum (length (dims nf ad))
     (fun a => delta (nth a (dims nf ad) O) f * delta (nth a (dims nf ad) O) e * q) = 0).
  { intros. apply sum_zero_ext; intros i Hi.
    rewrite delta_diff; [ring|intros <-; apply H; now apply nth_In]. }
  assert (FN : find_ix f (dims nf ad) = None).
  { destruct (find_ix f (dims nf ad)) eqn:E; auto.
    destruct (find_ix_spec _ _ _ E) as [Ha <-]. exfalso. apply H. now apply nth_In. }
  destruct a; unfold atom_d01k; try exact G.
  - reflexivity.
  - unfold linear_d01k, scat_diag. rewrite blk_mod by auto. now rewrite FN.
  - unfold poly_d01k, rs_4, scat2_xy. rewrite !blk_div, !blk_mod by auto. now rewrite FN.
  - unfold poly_d01k, rs_4, scat2_xy. rewrite !blk_div, !blk_mod by auto. now rewrite FN.
  - unfold se_d01k, rs_4. rewrite !blk_div, !blk_mod by auto. rewrite Z.
    rewrite scat_inactive by auto. ring.
  - unfold m52_d01k, rs_4. rewrite !blk_div, !blk_mod by auto. rewrite Z.
    rewrite scat_inactive by auto. ring.
Qed.
Lemma d01k_inactive : forall nf k X1 X2 s f t e, (f < nf)%nat -> (e < nf)%nat ->
  all_atoms (fun ad _ => ~ In f (active nf ad)) k ->
  d01k nf k X1 X2 (s * nf + f)%nat (t * nf + e)%nat = 0.
Proof.
  induction k as [ad a|k1 IH1 k2 IH2|k1 IH1 k2 IH2]; intros X1 X2 s f t e Hf He H; simpl.
  - now apply atom_d01k_inactive.
  - destruct H. rewrite IH1, IH2 by auto. ring.
  - destruct H. rewrite IH1, IH2 by auto. unfold rep_col. rewrite !blk_div by auto.
    rewrite !d0k_inactive by auto. ring.
Qed.
