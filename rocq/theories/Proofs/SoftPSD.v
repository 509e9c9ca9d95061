(** Mixed-derivative matrices of products of squared exponentials: positive semidefinite up to a
    slack of order 1e-12. *)
From Coq Require Import Reals Arith Lia Lra List FunctionalExtensionality.
From Coquelicot Require Import Coquelicot.
From Verif Require Import Base.Sums Base.Mat Base.PSD Model.Arrays Model.Distances Model.Kernelizers Model.Kernels Spec.Partial Spec.KernelSpec
  Spec.SoftSpec Proofs.Deriv Proofs.KernelAtoms Proofs.KernelJets Proofs.Loops Proofs.KernelMethods Proofs.Contraction
  Proofs.KernelDerivs Proofs.KernelSym Proofs.KernelPSD Proofs.KernelPropLemmas Proofs.Local Proofs.Jet2 Proofs.JetPSD.
Open Scope R_scope.

(** joint matrix of evaluations and derivatives from given value, first and mixed derivative functions *)
Definition joint (K : Vec -> Vec -> R) (F0 : Vec -> Vec -> Vec -> R) (F01 : Vec -> Vec -> Vec -> Vec -> R)
  (X U : Mat) (isd : nat -> bool) : Mat := fun i j =>
  match isd i, isd j with
  | false, false => K (X i) (X j)
  | true, false => F0 (X i) (X j) (U i)
  | false, true => F0 (X j) (X i) (U j)
  | true, true => F01 (X i) (X j) (U i) (U j)
  end.

Lemma jet_joint_psd : forall nf k F0 F01, all_atoms (fun _ a => psd_atom a) k ->
  (forall x u y v, jet2 (fun s t => kernel_at nf k (line x u s) (line y v t))
    (fun s t => F0 (line x u s) (line y v t) u)
    (fun s t => F0 (line y v t) (line x u s) v)
    (fun s t => F01 (line x u s) (line y v t) u v)) ->
  forall n X U isd, psd n (joint (kernel_at nf k) F0 F01 X U isd).
Proof.
  intros nf k F0 F01 HP HJ n X U isd c. unfold qf.
  set (P := fun (h : R) i => if isd i then line (X i) (U i) h else X i).
  set (al := fun (h : R) i => if isd i then c i / h else c i).
  set (be := fun (h : R) i => if isd i then - (c i / h) else 0).
  set (l := sum n (fun i => sum n (fun j => c i * joint (kernel_at nf k) F0 F01 X U isd i j * c j))).
  change (Rbar_le (Finite 0) (Finite l)). unfold l.
  apply (is_lim_seq_le (fun _ => 0) (fun m => sum n (fun i => sum n (fun j =>
      al (hseq m) i * kernel_at nf k (P (hseq m) i) (P (hseq m) j) * al (hseq m) j
    + al (hseq m) i * kernel_at nf k (P (hseq m) i) (X j) * be (hseq m) j
    + be (hseq m) i * kernel_at nf k (X i) (P (hseq m) j) * al (hseq m) j
    + be (hseq m) i * kernel_at nf k (X i) (X j) * be (hseq m) j)))).
  - intro m. now apply gram_pairs.
  - apply is_lim_seq_const.
  - apply lim_sum. intros i Hi. apply lim_sum. intros j Hj.
    pose proof (HJ (X i) (U i) (X j) (U j)) as J.
    assert (Hh : forall m, hseq m <> 0) by (intro m; apply Rgt_not_eq, hseq_pos).
    unfold joint, P, al, be. destruct (isd i), (isd j).
    + pose proof (mixed_lim _ _ _ _ J) as M. cbv beta in M. rewrite !line_0 in M.
      apply (is_lim_seq_scal_l _ (c i * c j)) in M. simpl in M.
      replace (c i * F01 (X i) (X j) (U i) (U j) * c j) with (c i * c j * F01 (X i) (X j) (U i) (U j)) by ring.
      eapply is_lim_seq_ext; [|exact M]. intro m. simpl. specialize (Hh m). field. auto.
    + pose proof (diff_lim (fun s => kernel_at nf k (line (X i) (U i) s) (line (X j) (U j) 0)) _
        (j_0 _ _ _ _ J 0 0)) as M. cbv beta in M. rewrite !line_0 in M.
      apply (is_lim_seq_scal_l _ (c i * c j)) in M. simpl in M.
      replace (c i * F0 (X i) (X j) (U i) * c j) with (c i * c j * F0 (X i) (X j) (U i)) by ring.
      eapply is_lim_seq_ext; [|exact M]. intro m. simpl. specialize (Hh m). field. auto.
    + pose proof (diff_lim (fun s => kernel_at nf k (line (X i) (U i) 0) (line (X j) (U j) s)) _
        (j_1 _ _ _ _ J 0 0)) as M. cbv beta in M. rewrite !line_0 in M.
      apply (is_lim_seq_scal_l _ (c i * c j)) in M. simpl in M.
      replace (c i * F0 (X j) (X i) (U j) * c j) with (c i * c j * F0 (X j) (X i) (U j)) by ring.
      eapply is_lim_seq_ext; [|exact M]. intro m. simpl. specialize (Hh m). field. auto.
    + eapply is_lim_seq_ext; [|apply is_lim_seq_const]. intro m. simpl. ring.
Qed.

(** scaling the derivative functionals *)
Lemma joint_scale : forall K F0 F01 a n X U isd, psd n (joint K F0 F01 X U isd) ->
  psd n (joint K (fun x y u => a * F0 x y u) (fun x y u v => a ^ 2 * F01 x y u v) X U isd).
Proof.
  intros K F0 F01 a n X U isd H c.
  specialize (H (fun i => if isd i then a * c i else c i)).
  eapply Rle_trans; [exact H|]. apply Req_le. unfold qf. apply sum_ext. intros i Hi. apply sum_ext. intros j Hj.
  unfold joint. destruct (isd i), (isd j); ring.
Qed.
Lemma joint_sum : forall K F0 F01 K' F0' F01' n X U isd,
  psd n (joint K F0 F01 X U isd) -> psd n (joint K' F0' F01' X U isd) ->
  psd n (joint (fun x y => K x y + K' x y) (fun x y u => F0 x y u + F0' x y u)
    (fun x y u v => F01 x y u v + F01' x y u v) X U isd).
Proof.
  intros K F0 F01 K' F0' F01' n X U isd H1 H2.
  apply (psd_ext n (madd (joint K F0 F01 X U isd) (joint K' F0' F01' X U isd))); [|now apply psd_madd].
  intros i j Hi Hj. unfold madd, joint. destruct (isd i), (isd j); reflexivity.
Qed.
Lemma joint_sym : forall K F0 F01 n X U isd, (forall x y, K x y = K y x) ->
  (forall x y u v, F01 x y u v = F01 y x v u) -> sym n (joint K F0 F01 X U isd).
Proof.
  intros K F0 F01 n X U isd HK HF i j _ _. unfold joint. destruct (isd i), (isd j); auto.
Qed.
(** the product rule preserves positive semidefiniteness *)
Lemma joint_prod : forall K F0 F01 K' F0' F01',
  (forall x y, K x y = K y x) -> (forall x y, K' x y = K' y x) -> (forall x y u v, F01' x y u v = F01' y x v u) ->
  (forall n X U isd, psd n (joint K F0 F01 X U isd)) ->
  (forall n X U isd, psd n (joint K' F0' F01' X U isd)) ->
  forall n X U isd,
  psd n (joint (fun x y => K x y * K' x y) (fun x y u => K x y * F0' x y u + F0 x y u * K' x y)
    (fun x y u v => K x y * F01' x y u v + F0 x y u * F0' y x v + F0 y x v * F0' x y u
       + F01 x y u v * K' x y) X U isd).
Proof.
  intros K F0 F01 K' F0' F01' KS SK SF H1 H2 n X U isd c.
  set (q := fun r => if Nat.ltb r n then r else (r - n)%nat).
  set (X' := fun r => X (q r)). set (U' := fun r => U (q r)).
  set (d1 := fun r => andb (isd (q r)) (Nat.ltb r n)). set (d2 := fun r => andb (isd (q r)) (negb (Nat.ltb r n))).
  set (c' := fun r => if Nat.ltb r n then c r else if isd (q r) then c (q r) else 0).
  pose proof (psd_hada (n + n) _ _ (H1 (n + n)%nat X' U' d1)
    (joint_sym K' F0' F01' (n + n) X' U' d2 SK SF) (H2 (n + n)%nat X' U' d2) c') as G.
  eapply Rle_trans; [exact G|]. apply Req_le. unfold qf.
  assert (L1 : forall i, (i < n)%nat -> Nat.ltb i n = true) by (intros; now apply Nat.ltb_lt).
  assert (L2 : forall i, Nat.ltb (n + i) n = false) by (intros; apply Nat.ltb_ge; lia).
  assert (L3 : forall i, (n + i - n)%nat = i) by (intros; lia).
  rewrite sum_app, <- sum_plus. apply sum_ext. intros i Hi.
  rewrite !sum_app, <- !sum_plus. apply sum_ext. intros j Hj.
  unfold hada, joint, c', X', U', d1, d2, q. rewrite !L1, !L2, !L3 by auto. cbn [negb].
  rewrite !Bool.andb_true_r, !Bool.andb_false_r. cbn [andb].
  destruct (isd i), (isd j); try ring.
  rewrite (KS (X j) (X i)), (SK (X j) (X i)). ring.
Qed.

(** ** the slack *)
Definition sl : R := exp jit12 ^ 2 - 1.
Fixpoint Qd (nf : nat) (k : kexp) (x y u v : Vec) : R :=
  match k with
  | KAtom ad (ASE l) => sl * E01 nf (KAtom ad (ASE l)) x y u v
  | KAtom _ _ => 0
  | KSum k1 k2 => Qd nf k1 x y u v + Qd nf k2 x y u v
  | KProd k1 k2 => Qd nf k1 x y u v * kernel_at nf k2 x y + kernel_at nf k1 x y * Qd nf k2 x y u v
  end.
Lemma sl_pos : 0 < sl.
Proof.
  unfold sl. assert (1 < exp jit12) by (rewrite <- exp_0; apply exp_increasing, jit12_pos). nra.
Qed.
Lemma soft_regular : forall nf k x y, soft k -> all_atoms (fun ad a => regular_pair nf ad a x y) k.
Proof.
  intros nf k x y. unfold soft. induction k as [ad a|k1 I1 k2 I2|k1 I1 k2 I2]; simpl; intro H.
  - destruct a; simpl in *; auto; contradiction.
  - destruct H; auto.
  - destruct H; auto.
Qed.
Lemma Qd_sym : forall nf k x y u v, wf nf k -> ls_nonzero k -> soft k -> Qd nf k x y u v = Qd nf k y x v u.
Proof.
  intros nf k x y u v. induction k as [ad a|k1 I1 k2 I2|k1 I1 k2 I2]; intros W L S.
  - destruct a; try reflexivity. cbn [Qd]. f_equal. apply E01_sym; auto using soft_regular.
  - destruct W, L, S. cbn [Qd]. now rewrite I1, I2.
  - destruct W, L, S. cbn [Qd]. rewrite I1, I2 by auto. now rewrite (kernel_at_sym nf k1 y x), (kernel_at_sym nf k2 y x).
Qed.
Lemma E0_se : forall nf ad l x y u, ad_ok nf ad -> l <> 0 ->
  E0 nf (KAtom ad (ASE l)) x y u
  = exp jit12 * (fphi' (ASE l) (au nf ad (ASE l) x y) * G0 (dims nf ad) (ahx (ASE l)) x y u).
Proof.
  intros nf ad l x y u Had Hl. unfold E0, G0. rewrite <- (S0_dir (dims nf ad) (ahx (ASE l)) nf) by now apply dims_lt.
  rewrite <- !sum_scal_l. apply sum_ext. intros f Hf. unfold D0. unfold d0k.
  replace f with (0 * nf + f)%nat at 2 by lia.
  rewrite atom_d0k_entry by (simpl; auto using ad_ok_nodup).
  change (mult0 (ASE l) ?z) with (- exp (- z)). change (fphi' (ASE l) ?z) with (- exp (- (z + jit12))).
  change (pt x 0%nat) with x. change (pt y 0%nat) with y. unfold aS0.
  set (z := au nf ad (ASE l) x y).
  replace (exp (- z)) with (exp jit12 * exp (- (z + jit12))) by (rewrite <- exp_plus; f_equal; ring). ring.
Qed.

Theorem soft_joint : forall nf k, all_atoms (fun _ a => psd_atom a) k -> wf nf k -> ls_nonzero k -> soft k ->
  forall n X U isd, psd n (joint (kernel_at nf k) (E0 nf k)
    (fun x y u v => E01 nf k x y u v + Qd nf k x y u v) X U isd).
Proof.
  intros nf k. induction k as [ad a|k1 IH1 k2 IH2|k1 IH1 k2 IH2]; intros HP W L S n X U isd.
  - destruct (Classical_Prop.classic (exact_atom a)) as [E|E].
    + apply (psd_ext n (jgram nf (KAtom ad a) X U isd)); [|now apply jgram_psd].
      intros i j _ _. unfold joint, jgram. destruct (isd i), (isd j); auto.
      destruct a; simpl in E; try contradiction; simpl; ring.
    + destruct a; simpl in S; try contradiction; try (exfalso; apply E; exact I).
      pose proof (jet_joint_psd nf (KAtom ad (ASE l))
        (fun x y u => fphi' (ASE l) (au nf ad (ASE l) x y) * G0 (dims nf ad) (ahx (ASE l)) x y u)
        (E01 nf (KAtom ad (ASE l))) HP) as J.
      assert (HJ : forall x u y v, jet2 (fun s t => kernel_at nf (KAtom ad (ASE l)) (line x u s) (line y v t))
        (fun s t => fphi' (ASE l) (au nf ad (ASE l) (line x u s) (line y v t)) * G0 (dims nf ad) (ahx (ASE l)) (line x u s) (line y v t) u)
        (fun s t => fphi' (ASE l) (au nf ad (ASE l) (line y v t) (line x u s)) * G0 (dims nf ad) (ahx (ASE l)) (line y v t) (line x u s) v)
        (fun s t => E01 nf (KAtom ad (ASE l)) (line x u s) (line y v t) u v)).
      { intros x u y v. eapply jet2_ext; [..|apply (atom_jet nf ad (ASE l) x u y v L)]; intros s t.
        - now rewrite kernel_at_atom.
        - reflexivity.
        - cbv beta zeta. rewrite (au_sym nf ad (ASE l) (line x u s)). f_equal.
          unfold G0. apply sum_ext. intros. now rewrite ahx_ahy.
        - cbv beta zeta. now rewrite E01_se by auto. }
      specialize (J HJ n X U isd). apply (joint_scale _ _ _ (exp jit12)) in J.
      eapply psd_ext; [|exact J]. intros i j _ _. unfold joint. destruct (isd i), (isd j); auto.
      * cbn [Qd]. unfold sl. ring.
      * now rewrite E0_se by auto.
      * now rewrite E0_se by auto.
  - destruct HP as [P1 P2], W as [W1 W2], L as [L1 L2], S as [S1 S2].
    refine (psd_ext n _ _ _ (joint_sum _ _ _ _ _ _ n X U isd (IH1 P1 W1 L1 S1 n X U isd) (IH2 P2 W2 L2 S2 n X U isd))).
    intros i j _ _. unfold joint. destruct (isd i), (isd j); cbn [Qd]; rewrite ?E0_sum, ?E01_sum; try ring. reflexivity.
  - destruct HP as [P1 P2], W as [W1 W2], L as [L1 L2], S as [S1 S2].
    refine (psd_ext n _ _ _ (joint_prod _ _ _ _ _ _ (kernel_at_sym nf k1) (kernel_at_sym nf k2) _
      (IH1 P1 W1 L1 S1) (IH2 P2 W2 L2 S2) n X U isd)).
    + intros i j _ _. unfold joint. destruct (isd i), (isd j); cbn [Qd]; rewrite ?E0_prod, ?E01_prod; try ring.
      reflexivity.
    + intros. cbv beta. rewrite (E01_sym nf k2 x y), (Qd_sym nf k2 x y); auto. now apply soft_regular.
Qed.

Lemma psd_trace : forall n A c, sym n A -> psd n A ->
  qf n A c <= sum n (fun i => A i i) * sum n (fun i => c i ^ 2).
Proof.
  intros n A c HS HP.
  assert (E : meq n n A (gram n (cfac A))) by (intros i j Hi Hj; now apply psd_factor).
  rewrite (qf_ext n _ _ c c E) by (intros ? ?; reflexivity). rewrite qf_gram.
  rewrite (sum_ext n (fun i => A i i) (fun i => gram n (cfac A) i i)) by (intros; now apply E).
  unfold gram. rewrite sum_swap, <- sum_scal_r. apply sum_le. intros l Hl.
  pose proof (cauchy_schwarz n c (fun i => cfac A i l)) as Q.
  eapply Rle_trans; [|eapply Rle_trans; [exact Q|]]; apply Req_le; [ring|].
  rewrite Rmult_comm. f_equal; apply sum_ext; intros; ring.
Qed.
Lemma Qd_psd : forall nf k n X U, all_atoms (fun _ a => psd_atom a) k -> wf nf k -> ls_nonzero k -> soft k ->
  psd n (fun i j => Qd nf k (X i) (X j) (U i) (U j)).
Proof.
  intros nf k n X U. induction k as [ad a|k1 IH1 k2 IH2|k1 IH1 k2 IH2]; intros HP W L S.
  - assert (Z : psd n (fun _ _ => 0)).
    { intro c. unfold qf. apply Req_le. symmetry. apply sum_zero_ext. intros. apply sum_zero_ext. intros. ring. }
    destruct a; auto. cbn [Qd].
    apply (psd_ext n (mscal sl (fun i j => E01 nf (KAtom ad (ASE l)) (X i) (X j) (U i) (U j)))); [intros i j _ _; reflexivity|].
    apply psd_mscal; [apply Rlt_le, sl_pos|]. apply E01_psd; auto. apply dgram_jetable; auto. now right.
  - destruct HP, W, L, S. exact (psd_madd n _ _ (IH1 H H1 H3 H5) (IH2 H0 H2 H4 H6)).
  - destruct HP as [P1 P2], W as [W1 W2], L as [L1 L2], S as [S1 S2].
    assert (G : forall k, all_atoms (fun _ a => psd_atom a) k -> psd n (fun i j => kernel_at nf k (X i) (X j))).
    { intros k P. apply (psd_ext n (kk nf k X X)); [intros i j _ _; apply kk_at|].
      intro c. apply (gram_psd_kk nf n X k P c). }
    apply (psd_madd n (hada (fun i j => Qd nf k1 (X i) (X j) (U i) (U j)) (fun i j => kernel_at nf k2 (X i) (X j)))
       (hada (fun i j => kernel_at nf k1 (X i) (X j)) (fun i j => Qd nf k2 (X i) (X j) (U i) (U j)))).
    + apply psd_hada; auto. intros i j _ _. apply kernel_at_sym.
    + apply psd_hada; auto. intros i j _ _. now apply Qd_sym.
Qed.
Lemma kernel_diag_nonneg : forall nf k x, all_atoms (fun _ a => psd_atom a) k -> 0 <= kernel_at nf k x x.
Proof.
  intros nf k x P. pose proof (psd_diag 1 (kk nf k (fun _ => x) (fun _ => x)) (gram_psd_kk nf 1 _ k P) O (le_n 1)) as Q.
  now rewrite kk_at in Q.
Qed.
Lemma sl_bound : sl * (2 * exp (- jit12)) <= 5 * / 10 ^ 12.
Proof.
  fold jit12. unfold sl. set (j := jit12). assert (0 < j) by apply jit12_pos.
  assert (j <= / 10) by (unfold j, jit12; apply Rinv_le_contravar; lra).
  assert (E : exp j * exp (- j) = 1) by (rewrite <- exp_plus; replace (j + - j) with 0 by ring; apply exp_0).
  assert (1 + - j <= exp (- j)) by (left; apply exp_ineq1; lra).
  assert (P : 0 < exp j) by apply exp_pos.
  assert (exp j <= 10 / 9) by nra.
  assert (exp j - 1 <= 10 / 9 * j) by nra.
  replace ((exp j ^ 2 - 1) * (2 * exp (- j))) with (2 * (exp j * (exp j * exp (- j)) - exp (- j))) by ring.
  rewrite E. lra.
Qed.
Lemma Qd_diag : forall nf k x u, all_atoms (fun _ a => psd_atom a) k -> wf nf k -> ls_nonzero k -> soft k ->
  Qd nf k x x u u <= dslack nf k x u.
Proof.
  intros nf k x u. induction k as [ad a|k1 IH1 k2 IH2|k1 IH1 k2 IH2]; intros HP W L S.
  - destruct a; try contradiction; try (simpl; lra). cbn [Qd]. unfold dslack.
    rewrite E01_se by auto.
    assert (Z : G0 (dims nf ad) (ahx (ASE l)) x x u = 0).
    { unfold G0. apply sum_zero_ext. intros. simpl. unfold h_sq_x. ring. }
    rewrite Z. change (fphi' (ASE l) ?z) with (- exp (- (z + jit12))).
    assert (Z2 : au nf ad (ASE l) x x = 0).
    { unfold au, usum. apply sum_zero_ext. intros. simpl. unfold h_sq. ring. }
    rewrite Z2, Rplus_0_l.
    assert (G : G01 (dims nf ad) (ahxy (ASE l)) x x u u
      = - 2 * sum (length (active nf ad)) (fun i => (gather (active nf ad) u i / l) ^ 2)).
    { unfold G01. rewrite <- sum_scal_l. apply sum_ext. intros i Hi. simpl ahxy. unfold h_sq_xy.
      change (dims nf ad) with (active nf ad). simpl in L. field. auto. }
    rewrite G. set (T := sum _ _).
    assert (HT : 0 <= T) by (apply sum_nonneg; intros; apply pow2_ge_0).
    pose proof sl_bound as B.
    replace (sl * (fphi'' (ASE l) 0 * G0 (dims nf ad) (ahy (ASE l)) x x u * 0 + - exp (- jit12) * (-2 * T)))
      with (sl * (2 * exp (- jit12)) * T) by ring.
    now apply Rmult_le_compat_r.
  - destruct HP, W, L, S. cbn [Qd dslack]. specialize (IH1 H H1 H3 H5). specialize (IH2 H0 H2 H4 H6). lra.
  - destruct HP as [P1 P2], W as [W1 W2], L as [L1 L2], S as [S1 S2]. cbn [Qd dslack].
    apply Rplus_le_compat.
    + apply Rmult_le_compat_r; auto. now apply kernel_diag_nonneg.
    + apply Rmult_le_compat_l; auto. now apply kernel_diag_nonneg.
Qed.

Theorem soft_E01 : forall nf k, all_atoms (fun _ a => psd_atom a) k -> wf nf k -> ls_nonzero k -> soft k ->
  forall N Xi Ui c,
  - (sum N (fun i => dslack nf k (Xi i) (Ui i)) * sum N (fun i => c i ^ 2))
  <= qf N (fun i j => E01 nf k (Xi i) (Xi j) (Ui i) (Ui j)) c.
Proof.
  intros nf k HP W L S N Xi Ui c.
  pose proof (soft_joint nf k HP W L S N Xi Ui (fun _ => true) c) as P.
  change (joint _ _ _ Xi Ui (fun _ => true)) with
    (madd (fun i j => E01 nf k (Xi i) (Xi j) (Ui i) (Ui j)) (fun i j => Qd nf k (Xi i) (Xi j) (Ui i) (Ui j))) in P.
  rewrite qf_madd in P.
  assert (SQ : sym N (fun i j => Qd nf k (Xi i) (Xi j) (Ui i) (Ui j))) by (intros i j _ _; now apply Qd_sym).
  pose proof (psd_trace N _ c SQ (Qd_psd nf k N Xi Ui HP W L S)) as T.
  assert (D : sum N (fun i => Qd nf k (Xi i) (Xi i) (Ui i) (Ui i)) <= sum N (fun i => dslack nf k (Xi i) (Ui i))).
  { apply sum_le. intros i Hi. now apply Qd_diag. }
  assert (NN : 0 <= sum N (fun i => c i ^ 2)) by (apply sum_nonneg; intros; apply pow2_ge_0).
  apply (Rmult_le_compat_r _ _ _ NN) in D. lra.
Qed.
