(** Mixed-derivative matrices of the Matern32 kernel: positive semidefinite up to the 1e-18 lost where
    two points coincide. *)
From Coq Require Import Reals Arith Lia Lra List FunctionalExtensionality.
From Coquelicot Require Import Coquelicot.
From Verif Require Import Base.Sums Base.Mat Base.PSD Model.Arrays Model.Distances Model.Kernelizers Model.Kernels Spec.Partial Spec.KernelSpec
  Spec.SoftSpec Proofs.Deriv Proofs.KernelAtoms Proofs.KernelJets Proofs.Loops Proofs.KernelMethods Proofs.Contraction
  Proofs.KernelDerivs Proofs.KernelSym Proofs.KernelPSD Proofs.KernelPropLemmas Proofs.KernelBounds Proofs.MaternPSD Proofs.Local Proofs.Jet2 Proofs.JetPSD Proofs.SoftPSD.
Open Scope R_scope.

Lemma pairs_psd : forall (kap : Vec -> Vec -> R), (forall n X, psd n (fun i j => kap (X i) (X j))) ->
  forall n (P Q : Mat) (al be : Vec),
  0 <= sum n (fun i => sum n (fun j =>
    al i * kap (P i) (P j) * al j + al i * kap (P i) (Q j) * be j
    + be i * kap (Q i) (P j) * al j + be i * kap (Q i) (Q j) * be j)).
Proof.
  intros kap H n P Q al be.
  pose proof (H (n + n)%nat (fun i => if Nat.ltb i n then P i else Q (i - n)%nat)
    (fun i => if Nat.ltb i n then al i else be (i - n)%nat)) as G. unfold qf in G.
  eapply Rle_trans; [exact G|]. apply Req_le.
  rewrite sum_app.
  assert (L1 : forall i, (i < n)%nat -> Nat.ltb i n = true) by (intros; now apply Nat.ltb_lt).
  assert (L2 : forall i, Nat.ltb (n + i) n = false) by (intros; apply Nat.ltb_ge; lia).
  assert (L3 : forall i, (n + i - n)%nat = i) by (intros; lia).
  rewrite <- sum_plus. apply sum_ext. intros i Hi.
  rewrite !sum_app, <- !sum_plus. apply sum_ext. intros j Hj.
  rewrite !L1, !L2, !L3 by auto. ring.
Qed.
Lemma mixed_psd : forall (kap : Vec -> Vec -> R) F01, (forall n X, psd n (fun i j => kap (X i) (X j))) ->
  (forall x u y v, exists F0 F1, jet2 (fun s t => kap (line x u s) (line y v t)) F0 F1
     (fun s t => F01 (line x u s) (line y v t) u v)) ->
  forall n X U, psd n (fun i j => F01 (X i) (X j) (U i) (U j)).
Proof.
  intros kap F01 HP HJ n X U c. unfold qf.
  set (l := sum n (fun i => sum n (fun j => c i * F01 (X i) (X j) (U i) (U j) * c j))).
  change (Rbar_le (Finite 0) (Finite l)). unfold l.
  apply (is_lim_seq_le (fun _ => 0) (fun m => sum n (fun i => sum n (fun j =>
      c i / hseq m * kap (line (X i) (U i) (hseq m)) (line (X j) (U j) (hseq m)) * (c j / hseq m)
    + c i / hseq m * kap (line (X i) (U i) (hseq m)) (X j) * - (c j / hseq m)
    + - (c i / hseq m) * kap (X i) (line (X j) (U j) (hseq m)) * (c j / hseq m)
    + - (c i / hseq m) * kap (X i) (X j) * - (c j / hseq m))))).
  - intro m. exact (pairs_psd kap HP n (fun i => line (X i) (U i) (hseq m)) X (fun i => c i / hseq m)
      (fun i => - (c i / hseq m))).
  - apply is_lim_seq_const.
  - apply lim_sum. intros i Hi. apply lim_sum. intros j Hj.
    destruct (HJ (X i) (U i) (X j) (U j)) as [F0 [F1 J]].
    assert (Hh : forall m, hseq m <> 0) by (intro m; apply Rgt_not_eq, hseq_pos).
    pose proof (mixed_lim _ _ _ _ J) as M. cbv beta in M. rewrite !line_0 in M.
    apply (is_lim_seq_scal_l _ (c i * c j)) in M. simpl in M.
    replace (c i * F01 (X i) (X j) (U i) (U j) * c j) with (c i * c j * F01 (X i) (X j) (U i) (U j)) by ring.
    eapply is_lim_seq_ext; [|exact M]. intro m. simpl. specialize (Hh m). field. auto.
Qed.

Section M32.
Variables (nf : nat) (ad : option (list nat)) (l : R).
Hypothesis Hl : l <> 0.
Let ds := dims nf ad.
Let uu := usum ds (h_sq l).
Lemma uu_nonneg : forall x y, 0 <= uu x y.
Proof. intros. apply sum_nonneg. intros. unfold h_sq. apply pow2_ge_0. Qed.
(** the kernel with the distance shifted by d *)
Definition kd (d : R) (x y : Vec) : R := m32_phi 3 d (uu x y).
Definition E01d (d : R) (x y u v : Vec) : R :=
  m32_phi'' 3 d (uu x y) * G0 ds (h_sq_y l) x y v * G0 ds (h_sq_x l) x y u
  + m32_phi' 3 d (uu x y) * G01 ds (h_sq_xy l) x y u v.
Lemma exp_uu_psd : forall t n X, 0 <= t -> psd n (fun i j => exp (- (t * uu (X i) (X j)))).
Proof.
  intros t n X Ht.
  apply (psd_ext n (mscal (exp (t * jit12)) (fun i j => exp (- (t * vmat nf X 1 ad l i j))))).
  - intros i j _ _. unfold mscal, vmat. rewrite <- exp_plus. f_equal. unfold uu, ds. ring.
  - apply psd_mscal; [left; apply exp_pos|]. apply vmat_g; auto; lra.
Qed.
Lemma kd_psd : forall d, 0 < d -> forall n X, psd n (fun i j => kd d (X i) (X j)).
Proof.
  intros d Hd n X.
  assert (SY : forall x y, uu x y = uu y x).
  { intros. unfold uu, usum. apply sum_ext. intros. unfold h_sq. ring. }
  apply (psd_ext n (fun i j => g32 (sqrt (3 * (uu (X i) (X j) + d) + 0)))).
  - intros i j _ _. rewrite Rplus_0_r. reflexivity.
  - apply (m32_psd_w n (fun i j => 3 * (uu (X i) (X j) + d))); try lra.
    + intros i j _ _. now rewrite SY.
    + intros i j _ _. pose proof (uu_nonneg (X i) (X j)). lra.
    + intros t Ht.
      apply (psd_ext n (mscal (exp (- (t * 3 * d))) (fun i j => exp (- (t * 3 * uu (X i) (X j)))))).
      * intros i j _ _. unfold mscal. rewrite <- exp_plus. f_equal. ring.
      * apply psd_mscal; [left; apply exp_pos|]. apply exp_uu_psd. lra.
Qed.
Lemma kd_jet : forall d, 0 < d -> forall x u y v, exists F0 F1,
  jet2 (fun s t => kd d (line x u s) (line y v t)) F0 F1 (fun s t => E01d d (line x u s) (line y v t) u v).
Proof.
  intros d Hd x u y v.
  assert (JU : jet2 (fun s t => uu (line x u s) (line y v t))
    (fun s t => G0 ds (h_sq_x l) (line x u s) (line y v t) u) (fun s t => G0 ds (h_sq_y l) (line x u s) (line y v t) v)
    (fun s t => G01 ds (h_sq_xy l) (line x u s) (line y v t) u v)).
  { apply (jet2_sum (length ds)
      (fun b s t => ah (AM32 l) (gather ds x b + s * gather ds u b) (gather ds y b + t * gather ds v b))
      (fun b s t => ahx (AM32 l) (gather ds x b + s * gather ds u b) (gather ds y b + t * gather ds v b) * gather ds u b)
      (fun b s t => ahy (AM32 l) (gather ds x b + s * gather ds u b) (gather ds y b + t * gather ds v b) * gather ds v b)
      (fun b s t => ahxy (AM32 l) (gather ds x b + s * gather ds u b) (gather ds y b + t * gather ds v b) * gather ds u b * gather ds v b)).
    intros b _. now apply (ah_jet (AM32 l)). }
  do 2 eexists. unfold kd, E01d.
  apply (jet2_comp (m32_phi 3 d) (m32_phi' 3 d) (m32_phi'' 3 d) (fun z => - d < z)) with (5 := JU).
  - intros z Hz. apply m32_phi_d. lra.
  - intros z Hz. apply m32_phi_dd. lra.
  - intros z Hz. apply @ex_derive_continuous.
    assert (Q : 0 < 3 * (z + d)) by lra. assert (P : 0 < dd 3 d z) by now apply dd_pos.
    assert (E : ex_derive (dd 3 d) z) by now apply dd_ex.
    unfold m32_phi''. auto_derive. repeat split; auto; lra.
  - intros s t. pose proof (uu_nonneg (line x u s) (line y v t)). lra.
Qed.
Lemma E01d_psd : forall d, 0 < d -> forall n X U, psd n (fun i j => E01d d (X i) (X j) (U i) (U j)).
Proof. intros d Hd. exact (mixed_psd (kd d) (E01d d) (kd_psd d Hd) (kd_jet d Hd)). Qed.

Lemma uu_zero : forall x y, uu x y = 0 -> forall i, (i < length ds)%nat -> gather ds x i / l - gather ds y i / l = 0.
Proof.
  intros x y H i Hi.
  assert (Q : h_sq l (gather ds x i) (gather ds y i) <= uu x y).
  { apply (sum_term_le (length ds) (fun a => h_sq l (gather ds x a) (gather ds y a))); auto.
    intros. unfold h_sq. apply pow2_ge_0. }
  rewrite H in Q. unfold h_sq in Q. nra.
Qed.
Lemma G0_zero : forall x y u, uu x y = 0 -> G0 ds (h_sq_x l) x y u = 0.
Proof.
  intros x y u H. unfold G0. apply sum_zero_ext. intros i Hi. unfold h_sq_x. rewrite (uu_zero x y H i Hi). ring.
Qed.
Lemma dd_lim : forall z, 0 <= z -> is_lim_seq (fun m => dd 3 (hseq m) z) (dd 3 0 z).
Proof.
  intros z Hz. unfold dd.
  apply (is_lim_seq_continuous sqrt (fun m => 3 * (z + hseq m)) (3 * (z + 0))).
  - apply continuity_pt_sqrt. lra.
  - apply (is_lim_seq_scal_l (fun m => z + hseq m) 3 (z + 0)).
    apply is_lim_seq_plus'; [apply is_lim_seq_const|apply hseq_lim].
Qed.
Lemma exp_dd_lim : forall z, 0 <= z -> is_lim_seq (fun m => exp (- dd 3 (hseq m) z)) (exp (- dd 3 0 z)).
Proof.
  intros z Hz. apply (is_lim_seq_continuous exp (fun m => - dd 3 (hseq m) z) (- dd 3 0 z)).
  - apply derivable_continuous_pt, derivable_pt_exp.
  - apply (is_lim_seq_opp (fun m => dd 3 (hseq m) z) (dd 3 0 z)). now apply dd_lim.
Qed.
Lemma E01d_lim : forall x y u v, is_lim_seq (fun m => E01d (hseq m) x y u v) (E01d 0 x y u v).
Proof.
  intros x y u v. pose proof (uu_nonneg x y) as N.
  assert (L1 : is_lim_seq (fun m => m32_phi' 3 (hseq m) (uu x y) * G01 ds (h_sq_xy l) x y u v)
    (m32_phi' 3 0 (uu x y) * G01 ds (h_sq_xy l) x y u v)).
  { apply (is_lim_seq_scal_r (fun m => m32_phi' 3 (hseq m) (uu x y)) _ (m32_phi' 3 0 (uu x y))).
    unfold m32_phi'. apply (is_lim_seq_scal_l (fun m => exp (- dd 3 (hseq m) (uu x y))) (- (3 / 2)) (exp (- dd 3 0 (uu x y)))).
    now apply exp_dd_lim. }
  unfold E01d. apply is_lim_seq_plus'; [|exact L1].
  destruct (Req_dec (uu x y) 0) as [Z|Z].
  - rewrite (G0_zero x y u Z). eapply is_lim_seq_ext; [|rewrite Rmult_0_r; apply is_lim_seq_const].
    intro m. simpl. ring.
  - apply (is_lim_seq_scal_r (fun m => m32_phi'' 3 (hseq m) (uu x y) * G0 ds (h_sq_y l) x y v) _
      (m32_phi'' 3 0 (uu x y) * G0 ds (h_sq_y l) x y v)).
    apply (is_lim_seq_scal_r (fun m => m32_phi'' 3 (hseq m) (uu x y)) _ (m32_phi'' 3 0 (uu x y))).
    unfold m32_phi''. apply is_lim_seq_mult'; [|now apply exp_dd_lim].
    assert (P : 0 < dd 3 0 (uu x y)) by (apply dd_pos; lra).
    apply is_lim_seq_div'; [apply is_lim_seq_const| |lra].
    apply (is_lim_seq_scal_l (fun m => dd 3 (hseq m) (uu x y)) 4 (dd 3 0 (uu x y))). now apply dd_lim.
Qed.
Lemma E01t_psd : forall n X U, psd n (fun i j => E01d 0 (X i) (X j) (U i) (U j)).
Proof.
  intros n X U. apply (psd_lim n (fun m i j => E01d (hseq m) (X i) (X j) (U i) (U j))).
  - intro m. apply E01d_psd, hseq_pos.
  - intros. apply E01d_lim.
Qed.

(** coincidence matrix *)
Definition ceq (x y : Vec) : R := if Req_EM_T (uu x y) 0 then 1 else 0.
Lemma exp_N_lim : forall a, 0 <= a -> is_lim_seq (fun N => exp (- (INR N * a))) (Finite (if Req_EM_T a 0 then 1 else 0)).
Proof.
  intros a Ha. destruct (Req_EM_T a 0) as [->|H].
  - eapply is_lim_seq_ext; [|apply is_lim_seq_const]. intro N. simpl. rewrite Rmult_0_r, Ropp_0, exp_0. reflexivity.
  - apply exp_lim0. lra.
Qed.
Lemma ceq_psd : forall n X, psd n (fun i j => ceq (X i) (X j)).
Proof.
  intros n X. apply (psd_lim n (fun N i j => exp (- (INR N * uu (X i) (X j))))).
  - intro N. apply exp_uu_psd, pos_INR.
  - intros. apply exp_N_lim, uu_nonneg.
Qed.
Definition dirp (u v : Vec) : R := sum (length ds) (fun i => gather ds u i / l * (gather ds v i / l)).
Lemma cdir_psd : forall n X U, psd n (fun i j => ceq (X i) (X j) * dirp (U i) (U j)).
Proof.
  intros n X U. apply (psd_hada n (fun i j => ceq (X i) (X j)) (gram (length ds) (fun i a => gather ds (U i) a / l))).
  - apply ceq_psd. - apply sym_gram. - apply psd_gram.
Qed.
Lemma cdir_sym : forall n X U, sym n (fun i j => ceq (X i) (X j) * dirp (U i) (U j)).
Proof.
  intros n X U i j _ _. f_equal.
  - unfold ceq. replace (uu (X j) (X i)) with (uu (X i) (X j)); auto.
    unfold uu, usum. apply sum_ext. intros. unfold h_sq. ring.
  - unfold dirp. apply sum_ext. intros. ring.
Qed.

(** what the code computes *)
Definition sep (x y : Vec) : Prop := uu x y = 0 \/ tiny36 < 3 * uu x y.
Hypothesis Had : ad_ok nf ad.
Lemma E01_m32 : forall x y u v, sep x y ->
  E01 nf (KAtom ad (AM32 l)) x y u v
  = E01d 0 x y u v - 3 * (1 - exp (- sqrt tiny36)) * (ceq x y * dirp u v).
Proof.
  intros x y u v Hs. unfold E01. set (a := AM32 l).
  assert (R : areg a (au nf ad a x y)).
  { unfold areg, a. unfold au. simpl ah. fold ds. fold (uu x y). pose proof tiny36_pos. destruct Hs; lra. }
  set (p2 := rmult01'' a (au nf ad a x y)). set (p1 := rmult01' a (au nf ad a x y)).
  assert (E : sum nf (fun f => sum nf (fun e => u f * D01 nf (KAtom ad a) x y f e * v e))
    = p2 * G0 ds (h_sq_y l) x y v * G0 ds (h_sq_x l) x y u + p1 * G01 ds (h_sq_xy l) x y u v).
  { unfold G0, G01.
    rewrite <- (S0_dir ds (h_sq_x l) nf) by now apply dims_lt.
    rewrite <- (S1_dir ds (h_sq_y l) nf) by now apply dims_lt.
    rewrite <- (S01_dir ds (h_sq_xy l) nf) by now apply dims_lt.
    transitivity (sum nf (fun f => sum nf (fun e =>
       p2 * (S1 ds (h_sq_y l) x y e * v e) * (u f * S0 ds (h_sq_x l) x y f)
       + p1 * (u f * S01 ds (h_sq_xy l) x y f e * v e)))).
    2:{ set (s1 := sum nf (fun f => S1 ds (h_sq_y l) x y f * v f)).
        rewrite <- sum_scal_l, <- sum_scal_l, <- sum_plus. apply sum_ext. intros f Hf. unfold s1.
        rewrite sum_plus, sum_scal_r, sum_scal_l, sum_scal_l. reflexivity. }
    apply sum_ext. intros f Hf. apply sum_ext. intros e Hee.
    pose proof (atom_d01k_reg nf ad a (pt x) (pt y) 0 f 0 e Hl (ad_ok_nodup nf ad Had) Hf Hee R) as Q.
    simpl Nat.mul in Q. simpl Nat.add in Q. unfold D01. unfold d01k. rewrite Q.
    unfold pt, aS0, aS1, aS01, p1, p2. simpl ahx. simpl ahy. simpl ahxy. fold ds. ring. }
  rewrite E. unfold E01d, p1, p2, a, rmult01'', rmult01', au. simpl ah. fold ds. fold (uu x y). clear E p1 p2.
  pose proof tiny36_pos as T. unfold ceq. destruct Hs as [Z|P].
  - rewrite !(G0_zero x y u Z). destruct (Req_EM_T (uu x y) 0); [|contradiction]. rewrite Z.
    assert (G : G01 ds (h_sq_xy l) x y u v = - 2 * dirp u v).
    { unfold G01, dirp. rewrite <- sum_scal_l. apply sum_ext. intros i Hi. unfold h_sq_xy. field. auto. }
    rewrite G. simpl gphi'. rewrite Rmax_right by lra. unfold m32_phi', dd.
    replace (3 * (0 + 0)) with 0 by ring. rewrite sqrt_0, Ropp_0, exp_0. lra.
  - destruct (Req_EM_T (uu x y) 0) as [Z|_]; [lra|]. destruct (Rlt_dec tiny36 (3 * uu x y)); [|contradiction].
    rewrite (gphi'_P (AM32 l)) by exact P. simpl aphi'. simpl aphi''. ring.
Qed.
Lemma clamp_loss : 3 * (1 - exp (- sqrt tiny36)) <= 3 * / 10 ^ 18.
Proof.
  assert (S : sqrt tiny36 = / 10 ^ 18).
  { unfold tiny36. replace (/ 10 ^ 36) with (/ 10 ^ 18 * / 10 ^ 18) by (rewrite <- Rinv_mult_distr by (apply pow_nonzero; lra); rewrite <- pow_add; reflexivity).
    apply sqrt_square. left. apply Rinv_0_lt_compat, pow_lt. lra. }
  rewrite S. assert (0 < / 10 ^ 18) by (apply Rinv_0_lt_compat, pow_lt; lra).
  set (t := / 10 ^ 18) in *. pose proof (exp_ineq1 (- t) ltac:(lra)). lra.
Qed.
Lemma E01_m32_low : forall n X U c, (forall i j, (i < n)%nat -> (j < n)%nat -> sep (X i) (X j)) ->
  - (sum n (fun i => 3 * / 10 ^ 18 * dirp (U i) (U i)) * sum n (fun i => c i ^ 2))
  <= qf n (fun i j => E01 nf (KAtom ad (AM32 l)) (X i) (X j) (U i) (U j)) c.
Proof.
  intros n X U c Hs. set (q := 3 * (1 - exp (- sqrt tiny36))).
  set (B := fun i j => ceq (X i) (X j) * dirp (U i) (U j)).
  assert (E : qf n (fun i j => E01 nf (KAtom ad (AM32 l)) (X i) (X j) (U i) (U j)) c
    = qf n (fun i j => E01d 0 (X i) (X j) (U i) (U j)) c - q * qf n B c).
  { rewrite (qf_ext n _ (madd (fun i j => E01d 0 (X i) (X j) (U i) (U j)) (mscal (- q) B)) c c).
    - rewrite qf_madd, qf_mscal. ring.
    - intros i j Hi Hj. rewrite E01_m32 by auto. unfold madd, mscal, B, q. ring.
    - intros ? ?; reflexivity. }
  rewrite E. pose proof (E01t_psd n X U c) as P.
  pose proof (psd_trace n B c (cdir_sym n X U) (cdir_psd n X U)) as T.
  pose proof clamp_loss as Q. fold q in Q.
  assert (Q0 : 0 <= q).
  { unfold q. assert (exp (- sqrt tiny36) <= 1); [|lra]. rewrite <- exp_0. pose proof (sqrt_pos tiny36).
    destruct (Req_dec (sqrt tiny36) 0) as [Z|]; [rewrite Z, Ropp_0; lra|]. left. apply exp_increasing. lra. }
  assert (D : sum n (fun i => B i i) = sum n (fun i => dirp (U i) (U i))).
  { apply sum_ext. intros i Hi. unfold B, ceq.
    assert (Z : uu (X i) (X i) = 0) by (apply sum_zero_ext; intros; unfold h_sq; ring).
    destruct (Req_EM_T (uu (X i) (X i)) 0); [ring|contradiction]. }
  rewrite D in T. rewrite sum_scal_l.
  assert (N1 : 0 <= sum n (fun i => c i ^ 2)) by (apply sum_nonneg; intros; apply pow2_ge_0).
  assert (N2 : 0 <= sum n (fun i => dirp (U i) (U i))).
  { apply sum_nonneg. intros. apply sum_nonneg. intros. apply Rle_0_sqr. }
  set (a := sum n (fun i => dirp (U i) (U i))) in *. set (b := sum n (fun i => c i ^ 2)) in *.
  assert (q * qf n B c <= q * (a * b)) by now apply Rmult_le_compat_l.
  assert (q * (a * b) <= 3 * / 10 ^ 18 * (a * b)) by (apply Rmult_le_compat_r; auto; now apply Rmult_le_pos).
  rewrite Rmult_assoc. lra.
Qed.
End M32.
