(** Predictions differentiated along a curve of test points. *)
From Coq Require Import Reals Arith Lia Lra List FunctionalExtensionality.
From Coquelicot Require Import Coquelicot.
From Verif Require Import Base.Sums Base.Mat Base.PSD Model.Arrays Model.Distances Model.Kernels Model.LinAlg Model.Operations
  Model.RPCholesky Model.GPR Spec.KernelSpec Proofs.Deriv Proofs.KernelAtoms Proofs.KernelJets Proofs.Loops Proofs.KernelMethods
  Proofs.Contraction Proofs.KernelDerivs Proofs.KernelSym
  Proofs.KernelPropLemmas Proofs.LinAlgFacts Proofs.Matvec Proofs.Local Proofs.Jet2 Proofs.JetPSD Proofs.GPRFacts.
Open Scope R_scope.

Definition moves (nf : nat) (g : R -> Vec) (t0 : R) (u : Vec) : Prop :=
  forall f, (f < nf)%nat -> is_derive (fun t => g t f) t0 (u f).

Lemma is_derive_chain : forall (f g : R -> R) t df dg, is_derive f (g t) df -> is_derive g t dg ->
  is_derive (fun t => f (g t)) t (df * dg).
Proof.
  intros f g t df dg Hf Hg. replace (df * dg) with (scal dg df) by (unfold scal; simpl; unfold mult; simpl; ring).
  exact (is_derive_comp f g t df dg Hf Hg).
Qed.
Lemma is_derive_mul : forall (f g : R -> R) t df dg, is_derive f t df -> is_derive g t dg ->
  is_derive (fun t => f t * g t) t (f t * dg + df * g t).
Proof.
  intros f g t df dg Hf Hg. replace (f t * dg + df * g t) with (plus (mult df (g t)) (mult (f t) dg)) by (simpl; unfold plus, mult; simpl; ring).
  apply @is_derive_mult; auto. intros; apply Rmult_comm.
Qed.
Lemma is_derive_add : forall (f g : R -> R) t df dg, is_derive f t df -> is_derive g t dg ->
  is_derive (fun t => f t + g t) t (df + dg).
Proof. intros f g t df dg Hf Hg. exact (is_derive_plus f g t df dg Hf Hg). Qed.
Lemma is_derive_eq : forall (f : R -> R) (t d d' : R), is_derive f t d -> d = d' -> is_derive f t d'.
Proof. intros; now subst. Qed.

Lemma au_curve : forall nf ad a x g t0 u, ad_ok nf ad -> moves nf g t0 u ->
  is_derive (fun t => au nf ad a x (g t)) t0 (G0 (dims nf ad) (ahy a) x (g t0) u).
Proof.
  intros nf ad a x g t0 u Had M. unfold au, usum, G0.
  apply (is_derive_sum (length (dims nf ad)) (fun b t => ah a (gather (dims nf ad) x b) (gather (dims nf ad) (g t) b))).
  intros b Hb. apply (is_derive_chain (fun z => ah a (gather (dims nf ad) x b) z) (fun t => gather (dims nf ad) (g t) b)).
  - apply ah_dy.
  - apply M. now apply ad_ok_lt.
Qed.
Lemma G0_curve : forall nf ad a x g t0 u w, ad_ok nf ad -> atom_l a -> moves nf g t0 u ->
  is_derive (fun t => G0 (dims nf ad) (ahx a) x (g t) w) t0 (G01 (dims nf ad) (ahxy a) x (g t0) w u).
Proof.
  intros nf ad a x g t0 u w Had Hl M. unfold G0, G01.
  apply (is_derive_sum (length (dims nf ad)) (fun b t => ahx a (gather (dims nf ad) x b) (gather (dims nf ad) (g t) b) * gather (dims nf ad) w b)).
  intros b Hb.
  eapply is_derive_eq.
  - apply (is_derive_mul (fun t => ahx a (gather (dims nf ad) x b) (gather (dims nf ad) (g t) b)) (fun _ => gather (dims nf ad) w b)).
    + apply (is_derive_chain (fun z => ahx a (gather (dims nf ad) x b) z) (fun t => gather (dims nf ad) (g t) b)).
      * now apply ah_dxy.
      * apply M. now apply ad_ok_lt.
    + apply @is_derive_const.
  - unfold zero; simpl. unfold gather. ring.
Qed.
Lemma E0_curve_atom : forall nf ad a x g t0 u w, ad_ok nf ad -> atom_l a -> moves nf g t0 u ->
  is_derive (fun t => fphi' a (au nf ad a x (g t)) * G0 (dims nf ad) (ahx a) x (g t) w) t0
    (fphi'' a (au nf ad a x (g t0)) * G0 (dims nf ad) (ahy a) x (g t0) u * G0 (dims nf ad) (ahx a) x (g t0) w
     + fphi' a (au nf ad a x (g t0)) * G01 (dims nf ad) (ahxy a) x (g t0) w u).
Proof.
  intros nf ad a x g t0 u w Had Hl M. eapply is_derive_eq.
  - apply (is_derive_mul (fun t => fphi' a (au nf ad a x (g t))) (fun t => G0 (dims nf ad) (ahx a) x (g t) w)).
    + apply (is_derive_chain (fphi' a) (fun t => au nf ad a x (g t))); [apply fphi'_d, fP_au|apply au_curve; [assumption|eassumption]].
    + apply G0_curve; eassumption.
  - simpl. ring.
Qed.
Lemma kernel_curve : forall nf k x g t0 u, wf nf k -> ls_nonzero k -> exact k -> moves nf g t0 u ->
  is_derive (fun t => kernel_at nf k x (g t)) t0 (E0 nf k (g t0) x u).
Proof.
  intros nf k x g t0 u. induction k as [ad a|k1 IH1 k2 IH2|k1 IH1 k2 IH2]; intros W L E M.
  - rewrite (E1_atom nf ad a x (g t0) u) by auto.
    eapply is_derive_ext; [intro t; symmetry; apply kernel_at_atom|].
    apply (is_derive_chain (fphi a) (fun t => au nf ad a x (g t))); [apply fphi_d, fP_au|apply au_curve; [assumption|eassumption]].
  - destruct W, L, E. rewrite E0_sum. apply (is_derive_add (fun t => kernel_at nf k1 x (g t)) (fun t => kernel_at nf k2 x (g t))); auto.
  - destruct W, L, E. rewrite E0_prod. rewrite !(kernel_at_sym nf _ (g t0)).
    apply (is_derive_mul (fun t => kernel_at nf k1 x (g t)) (fun t => kernel_at nf k2 x (g t))); auto.
Qed.
Lemma E0_curve : forall nf k x g t0 u w, wf nf k -> ls_nonzero k -> exact k -> moves nf g t0 u ->
  is_derive (fun t => E0 nf k x (g t) w) t0 (E01 nf k x (g t0) w u).
Proof.
  intros nf k x g t0 u w. induction k as [ad a|k1 IH1 k2 IH2|k1 IH1 k2 IH2]; intros W L E M.
  - rewrite (E01_atom nf ad a x (g t0) w u) by auto.
    eapply is_derive_ext; [intro t; symmetry; now apply E0_atom|]. apply E0_curve_atom; auto using ls_atom_l.
  - destruct W, L, E. rewrite E01_sum. eapply is_derive_ext; [intro t; symmetry; apply E0_sum|].
    apply is_derive_add; auto.
  - destruct W, L, E. rewrite E01_prod. eapply is_derive_ext; [intro t; symmetry; apply E0_prod|].
    assert (K1 := kernel_curve nf k1 x g t0 u ltac:(assumption) ltac:(assumption) ltac:(assumption) M).
    assert (K2 := kernel_curve nf k2 x g t0 u ltac:(assumption) ltac:(assumption) ltac:(assumption) M).
    assert (D1 := IH1 ltac:(assumption) ltac:(assumption) ltac:(assumption) M).
    assert (D2 := IH2 ltac:(assumption) ltac:(assumption) ltac:(assumption) M).
    pose proof (is_derive_add _ _ t0 _ _ (is_derive_mul _ _ t0 _ _ K1 D2) (is_derive_mul _ _ t0 _ _ D1 K2)) as Q.
    eapply is_derive_eq; [exact Q|]. cbv beta.
    generalize (kernel_at nf k1 x (g t0)) (kernel_at nf k2 x (g t0)) (E0 nf k1 x (g t0) w) (E0 nf k2 x (g t0) w)
      (E0 nf k1 (g t0) x u) (E0 nf k2 (g t0) x u) (E01 nf k1 x (g t0) w u) (E01 nf k2 x (g t0) w u).
    intros. ring.
Qed.
(** for a single squared exponential kernel the two methods differ by the factor exp(1e-12) *)
Lemma E0_se : forall nf ad l x y u, ad_ok nf ad -> l <> 0 ->
  E0 nf (KAtom ad (ASE l)) x y u = exp jit12 * (fphi' (ASE l) (au nf ad (ASE l) x y) * G0 (dims nf ad) (ahx (ASE l)) x y u).
Proof.
  intros nf ad l x y u Had Hl. unfold E0, G0. rewrite <- (S0_dir (dims nf ad) (ahx (ASE l)) nf) by now apply dims_lt.
  rewrite <- !sum_scal_l. apply sum_ext. intros f Hf. unfold D0.
  pose proof (atom_d0k_entry nf ad (ASE l) (pt x) (pt y) 0 f 0 Hl (ad_ok_nodup nf ad Had) Hf I) as Q.
  simpl Nat.mul in Q. simpl Nat.add in Q. unfold d0k. rewrite Q.
  assert (Z : mult0 (ASE l) (au nf ad (ASE l) x y) = exp jit12 * fphi' (ASE l) (au nf ad (ASE l) x y)).
  { simpl. rewrite Ropp_mult_distr_r_reverse. f_equal. rewrite <- exp_plus. f_equal. ring. }
  unfold pt in *. rewrite Z. unfold aS0. ring.
Qed.
Lemma se_E0_curve : forall nf ad l x g t0 u w, ad_ok nf ad -> l <> 0 -> moves nf g t0 u ->
  is_derive (fun t => E0 nf (KAtom ad (ASE l)) x (g t) w) t0 (exp jit12 * E01 nf (KAtom ad (ASE l)) x (g t0) w u).
Proof.
  intros nf ad l x g t0 u w Had Hl M. rewrite E01_se by auto.
  eapply is_derive_ext; [intro t; symmetry; now apply E0_se|].
  eapply is_derive_eq; [apply (is_derive_mul (fun _ => exp jit12)); [apply @is_derive_const|apply E0_curve_atom; eauto]|].
  unfold zero; simpl. ring.
Qed.
Lemma se_kernel_curve : forall nf ad l x g t0 u, ad_ok nf ad -> l <> 0 -> moves nf g t0 u ->
  is_derive (fun t => kernel_at nf (KAtom ad (ASE l)) x (g t)) t0 (exp (- jit12) * E0 nf (KAtom ad (ASE l)) (g t0) x u).
Proof.
  intros nf ad l x g t0 u Had Hl M. rewrite E0_se by auto. rewrite <- Rmult_assoc, <- exp_plus.
  replace (- jit12 + jit12) with 0 by ring. rewrite exp_0, Rmult_1_l.
  rewrite au_sym.
  replace (G0 (dims nf ad) (ahx (ASE l)) (g t0) x u) with (G0 (dims nf ad) (ahy (ASE l)) x (g t0) u)
    by (unfold G0; apply sum_ext; intros; now rewrite ahx_ahy).
  eapply is_derive_ext; [intro t; symmetry; apply kernel_at_atom|].
  apply (is_derive_chain (fphi (ASE l)) (fun t => au nf ad (ASE l) x (g t))); [apply fphi_d, fP_au|apply au_curve; [assumption|eassumption]].
Qed.

(** ** predictions *)
Section Pred.
  Variables (nf : nat) (k : kexp).
  Hypothesis W : wf nf k.
  Hypothesis L : ls_nonzero k.
  Let c0 : R := 1.

  Lemma predict_y_derivs_curve_gen : forall kappa m n nv nd sigma xt jt (G : R -> Mat) jac c mu t u t0,
    (forall x g t0 u w, moves nf g t0 u ->
       is_derive (fun t => E0 nf k x (g t) w) t0 (kappa * E01 nf k x (g t0) w u)) ->
    (t < n)%nat -> (u < nd)%nat -> moves nf (fun z => G z t) t0 (jcol jac t u) ->
    is_derive (fun z => predict_y_derivs_dense m n nf nv k xt jt (G z) c mu t O) t0
      (kappa * predict_derivs_dense m n nf nv nd k sigma xt jt (G t0) jac c 0 t u).
  Proof.
    intros kappa m n nv nd sigma xt jt G jac c mu t u t0 H Ht Hu M.
    apply (is_derive_ext (fun z => mu + sum (m * nv) (fun r => E0 nf k (xt (r / nv)%nat) (G z t) (jcol jt (r / nv)%nat (r mod nv)%nat) * c r O))).
    { intro z. unfold predict_y_derivs_dense. f_equal. unfold mm, tr. apply sum_ext. intros r Hr.
      destruct (blk_eq m nv r Hr) as [s [v [Hs [Hv ->]]]]. now rewrite blk_div, blk_mod, d0kj_E0 by auto. }
    eapply is_derive_eq.
    - apply is_derive_add; [apply @is_derive_const|].
      apply (is_derive_sum (m * nv) (fun r z => E0 nf k (xt (r / nv)%nat) (G z t) (jcol jt (r / nv)%nat (r mod nv)%nat) * c r O)).
      intros r Hr. apply (is_derive_mul _ (fun _ => c r O)); [apply H; exact M|apply @is_derive_const].
    - unfold zero; simpl. rewrite Rplus_0_l. unfold predict_derivs_dense, unflat, mm, tr, A_derivs_lhs.
      rewrite Rplus_0_l, <- sum_scal_l. apply sum_ext. intros r Hr.
      destruct (blk_eq m nv r Hr) as [s [v [Hs [Hv ->]]]]. rewrite blk_div, blk_mod, d01kj_E01 by auto. ring.
  Qed.
  Lemma predict_ol_curve_gen : forall kappa m n nd sigma xt (G : R -> Mat) jac c mu t u t0,
    (forall x g t0 u, moves nf g t0 u ->
       is_derive (fun t => kernel_at nf k x (g t)) t0 (kappa * E0 nf k (g t0) x u)) ->
    (t < n)%nat -> (u < nd)%nat -> moves nf (fun z => G z t) t0 (jcol jac t u) ->
    is_derive (fun z => predict_ol_y m nf k sigma xt (G z) c mu t O) t0
      (kappa * predict_ol_yd m n nf nd k xt (G t0) jac c (t * nd + u)%nat O).
  Proof.
    intros kappa m n nd sigma xt G jac c mu t u t0 H Ht Hu M.
    apply (is_derive_ext (fun z => mu + sum m (fun s => c s O * kernel_at nf k (xt s) (G z t)))).
    { intro z. unfold predict_ol_y. f_equal. unfold mm, tr, A_lhs. apply sum_ext. intros s Hs. now rewrite kk_at. }
    eapply is_derive_eq.
    - apply is_derive_add; [apply @is_derive_const|].
      apply (is_derive_sum m (fun s z => c s O * kernel_at nf k (xt s) (G z t))).
      intros s Hs. apply (is_derive_mul (fun _ => c s O) (fun z => kernel_at nf k (xt s) (G z t)));
        [apply @is_derive_const|apply (H (xt s) (fun z => G z t)); exact M].
    - unfold zero; simpl. rewrite Rplus_0_l. unfold predict_ol_yd, mm, tr.
      rewrite <- sum_scal_l. apply sum_ext. intros s Hs. rewrite d1kj_E0 by auto. ring.
  Qed.
End Pred.
