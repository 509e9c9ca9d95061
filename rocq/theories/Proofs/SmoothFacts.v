(** Smooth covariance functions: the derivatives autodiff computes, sums and products, and the positive
    semidefiniteness of the matrices of mixed derivatives. *)
From Coq Require Import List Reals Lia Lra Arith FunctionalExtensionality.
From Coquelicot Require Import Coquelicot.
From Verif Require Import Base.Sums Base.Mat Base.PSD Model.Arrays Model.Kernels Spec.Partial Spec.KernelSpec Spec.CustomSpec Spec.SmoothSpec
  Proofs.Deriv Proofs.KernelDerivs Proofs.Local Proofs.KernelSym Proofs.KernelPSD Proofs.KernelPropLemmas Proofs.Jet2 Proofs.JetPSD.
Open Scope R_scope.

Section Smooth.
  Variables (nf : nat) (k : Vec -> Vec -> R) (g0 g1 : Vec -> Vec -> Vec) (h : Vec -> Vec -> Mat).
  Notation dir0 := (dir nf g0).
  Notation dir1 := (dir nf g1).
  Notation dir01 := (dir2 nf h).
  Lemma smooth_jet2 : smooth nf k g0 g1 h <-> forall x u y v,
    jet2 (fun s t => k (toward x u s) (toward y v t)) (fun s t => dir0 (toward x u s) (toward y v t) u)
      (fun s t => dir1 (toward x u s) (toward y v t) v) (fun s t => dir01 (toward x u s) (toward y v t) u v).
  Proof.
    split; intros H x u y v.
    - destruct (H x u y v) as [[C [C0 [C1 C01]]] [D0 [D1 D01]]]. constructor; assumption.
    - destruct (H x u y v) as [C C0 C1 C01 D0 D1 D01]. split; [repeat split; assumption|].
      split; [exact D0|]. split; [exact D1|exact D01].
  Qed.
  Lemma toward_0 : forall x u, toward x u 0 = x.
  Proof. intros. extensionality f. unfold toward. ring. Qed.
  (** basis directions *)
  Lemma toward_upd : forall x f t, upd x f t = toward x (delta f) (t - x f).
  Proof.
    intros x f t. extensionality g. unfold upd, toward, delta. rewrite (Nat.eqb_sym g f).
    destruct (Nat.eqb_spec f g) as [->|N]; ring.
  Qed.
  Lemma toward_upd2 : forall x f t, toward (upd x f t) (delta f) 0 = toward x (delta f) (t - x f).
  Proof. intros. now rewrite toward_0, toward_upd. Qed.
  Lemma shift_derive : forall (F : R -> R) c d, is_derive F 0 d -> is_derive (fun t => F (t - c)) c d.
  Proof.
    intros F c d H. replace d with (1 * d) by ring.
    apply (is_derive_comp F (fun t => t - c)).
    - now replace (c - c) with 0 by ring.
    - auto_derive; trivial; ring.
  Qed.
  Lemma dir0_delta : forall x y f, (f < nf)%nat -> dir0 x y (delta f) = g0 x y f.
  Proof. intros x y f H. exact (sum_delta_l nf f (g0 x y) H). Qed.
  Lemma dir1_delta : forall x y f, (f < nf)%nat -> dir1 x y (delta f) = g1 x y f.
  Proof. intros x y f H. exact (sum_delta_l nf f (g1 x y) H). Qed.
  Lemma dir01_delta : forall x y f e, (f < nf)%nat -> (e < nf)%nat -> dir01 x y (delta f) (delta e) = h x y f e.
  Proof.
    intros x y f e Hf He. unfold dir2.
    rewrite (sum_ext nf _ (fun f' => delta f f' * sum nf (fun e' => delta e e' * h x y f' e'))).
    - rewrite (sum_delta_l nf f (fun f' => sum nf (fun e' => delta e e' * h x y f' e')) Hf). exact (sum_delta_l nf e (h x y f) He).
    - intros a _. rewrite <- sum_scal_l. apply sum_ext. intros; ring.
  Qed.
  Hypothesis S : smooth nf k g0 g1 h.
  Lemma smooth_autodiff : autodiff nf k g0 g1 h.
  Proof.
    pose proof (proj1 smooth_jet2 S) as J. intros x y f e Hf He.
    assert (P0 : forall y, partial0 k x y f (g0 x y f)).
    { clear y. intro y. unfold partial0. pose proof (j_0 _ _ _ _ (J x (delta f) y (fun _ => 0)) 0 0) as D. cbv beta in D.
      rewrite !toward_0, dir0_delta in D by auto. apply (shift_derive _ (x f)) in D.
      eapply is_derive_ext; [|exact D]. intro t. cbv beta. rewrite toward_upd. reflexivity. }
    split; [apply P0|]. split.
    - unfold partial1. pose proof (j_1 _ _ _ _ (J x (fun _ => 0) y (delta e)) 0 0) as D. cbv beta in D.
      rewrite !toward_0, dir1_delta in D by auto. apply (shift_derive _ (y e)) in D.
      eapply is_derive_ext; [|exact D]. intro t. cbv beta. rewrite toward_upd. reflexivity.
    - exists (fun r => g0 x (upd y e r) f). split; [apply filter_forall; intro r; apply P0|].
      pose proof (j_01 _ _ _ _ (J x (delta f) y (delta e)) 0 0) as D. cbv beta in D.
      rewrite !toward_0, dir01_delta in D by auto. apply (shift_derive _ (y e)) in D.
      eapply is_derive_ext; [|exact D]. intro t. cbv beta. rewrite dir0_delta by auto. rewrite toward_upd. reflexivity.
  Qed.

  (** the order of the two derivatives does not matter *)
  Lemma dir01_sym : (forall x y, k x y = k y x) -> forall x y u v, dir01 x y u v = dir01 y x v u.
  Proof.
    intros E x y u v. pose proof (proj1 smooth_jet2 S) as J.
    pose proof (mixed_lim _ _ _ _ (J x u y v)) as M1. pose proof (mixed_lim _ _ _ _ (J y v x u)) as M2.
    cbv beta in M1, M2. rewrite !toward_0 in M1, M2.
    apply is_lim_seq_unique in M1. apply is_lim_seq_unique in M2.
    rewrite (Lim_seq_ext _ (fun n => (k (toward y v (hseq n)) (toward x u (hseq n)) - k (toward y v (hseq n)) x - k y (toward x u (hseq n)) + k y x)
      / (hseq n * hseq n))) in M1.
    - rewrite M2 in M1. now injection M1.
    - intro n. rewrite (E (toward x u (hseq n)) (toward y v (hseq n))), (E (toward x u (hseq n)) y), (E x (toward y v (hseq n))), (E x y).
      f_equal. ring.
  Qed.
  Lemma pairs_psd : covariance k -> forall n (P Q : Mat) (al be : Vec),
    0 <= sum n (fun i => sum n (fun j =>
      al i * k (P i) (P j) * al j + al i * k (P i) (Q j) * be j + be i * k (Q i) (P j) * al j + be i * k (Q i) (Q j) * be j)).
  Proof.
    intros [_ H] n P Q al be.
    pose proof (H (n + n)%nat (fun i => if Nat.ltb i n then P i else Q (i - n)%nat)
      (fun i => if Nat.ltb i n then al i else be (i - n)%nat)) as G.
    eapply Rle_trans; [exact G|]. apply Req_le.
    rewrite sum_app.
    assert (L1 : forall i, (i < n)%nat -> Nat.ltb i n = true) by (intros; now apply Nat.ltb_lt).
    assert (L2 : forall i, Nat.ltb (n + i) n = false) by (intros; apply Nat.ltb_ge; lia).
    assert (L3 : forall i, (n + i - n)%nat = i) by (intros; lia).
    rewrite <- sum_plus. apply sum_ext. intros i Hi.
    rewrite !sum_app, <- !sum_plus. apply sum_ext. intros j Hj.
    rewrite !L1, !L2, !L3 by auto. ring.
  Qed.
  Lemma mixed_psd : covariance k -> forall n (X U : Mat), psd n (fun i j => dir01 (X i) (X j) (U i) (U j)).
  Proof.
    intros C n X U c. unfold qf. pose proof (proj1 smooth_jet2 S) as J.
    set (l := sum n (fun i => sum n (fun j => c i * dir01 (X i) (X j) (U i) (U j) * c j))).
    change (Rbar_le (Finite 0) (Finite l)). unfold l.
    apply (is_lim_seq_le (fun _ => 0) (fun m => sum n (fun i => sum n (fun j =>
        c i / hseq m * k (toward (X i) (U i) (hseq m)) (toward (X j) (U j) (hseq m)) * (c j / hseq m)
      + c i / hseq m * k (toward (X i) (U i) (hseq m)) (X j) * - (c j / hseq m)
      + - (c i / hseq m) * k (X i) (toward (X j) (U j) (hseq m)) * (c j / hseq m)
      + - (c i / hseq m) * k (X i) (X j) * - (c j / hseq m))))).
    - intro m. exact (pairs_psd C n (fun i => toward (X i) (U i) (hseq m)) X (fun i => c i / hseq m) (fun i => - (c i / hseq m))).
    - apply is_lim_seq_const.
    - apply lim_sum. intros i Hi. apply lim_sum. intros j Hj.
      assert (Hh : forall m, hseq m <> 0) by (intro m; apply Rgt_not_eq, hseq_pos).
      pose proof (mixed_lim _ _ _ _ (J (X i) (U i) (X j) (U j))) as M. cbv beta in M. rewrite !toward_0 in M.
      apply (is_lim_seq_scal_l _ (c i * c j)) in M. simpl in M.
      replace (c i * dir01 (X i) (X j) (U i) (U j) * c j) with (c i * c j * dir01 (X i) (X j) (U i) (U j)) by ring.
      eapply is_lim_seq_ext; [|exact M]. intro m. simpl. specialize (Hh m). field. auto.
  Qed.
End Smooth.

Lemma smooth_library : forall nf k, wf nf k -> ls_nonzero k -> exact k -> smooth_kernel nf (kernel_at nf k).
Proof.
  intros nf k W L E. exists (D0 nf k), (fun x y => D0 nf k y x), (D01 nf k). apply smooth_jet2. intros x u y v.
  exact (kernel_jet nf k x u y v W L E).
Qed.
Lemma smooth_sum : forall nf k1 k2, smooth_kernel nf k1 -> smooth_kernel nf k2 -> smooth_kernel nf (fun x y => k1 x y + k2 x y).
Proof.
  intros nf k1 k2 [a0 [a1 [ah S1]]] [b0 [b1 [bh S2]]].
  exists (fun x y f => a0 x y f + b0 x y f), (fun x y f => a1 x y f + b1 x y f), (fun x y f e => ah x y f e + bh x y f e).
  apply smooth_jet2. intros x u y v.
  eapply jet2_ext; [..|exact (jet2_plus _ _ _ _ _ _ _ _ (proj1 (smooth_jet2 _ _ _ _ _) S1 x u y v) (proj1 (smooth_jet2 _ _ _ _ _) S2 x u y v))];
    intros s t; cbv beta; [reflexivity|unfold dir|unfold dir|unfold dir2]; rewrite <- sum_plus; apply sum_ext; intros; try ring.
  rewrite <- sum_plus. apply sum_ext; intros; ring.
Qed.
Lemma smooth_prod : forall nf k1 k2, smooth_kernel nf k1 -> smooth_kernel nf k2 -> smooth_kernel nf (fun x y => k1 x y * k2 x y).
Proof.
  intros nf k1 k2 [a0 [a1 [ah S1]]] [b0 [b1 [bh S2]]].
  exists (fun x y f => k1 x y * b0 x y f + a0 x y f * k2 x y), (fun x y f => k1 x y * b1 x y f + a1 x y f * k2 x y),
    (fun x y f e => k1 x y * bh x y f e + a0 x y f * b1 x y e + a1 x y e * b0 x y f + ah x y f e * k2 x y).
  apply smooth_jet2. intros x u y v.
  eapply jet2_ext; [..|exact (jet2_mult _ _ _ _ _ _ _ _ (proj1 (smooth_jet2 _ _ _ _ _) S1 x u y v) (proj1 (smooth_jet2 _ _ _ _ _) S2 x u y v))];
    intros s t; cbv beta; set (X := toward x u s); set (Y := toward y v t); [reflexivity|unfold dir|unfold dir|unfold dir2, dir].
  - rewrite <- sum_scal_l, <- sum_scal_r, <- sum_plus. apply sum_ext; intros; ring.
  - rewrite <- sum_scal_l, <- sum_scal_r, <- sum_plus. apply sum_ext; intros; ring.
  - rewrite (sum_ext nf (fun f => sum nf (fun e => u f * (k1 X Y * bh X Y f e + a0 X Y f * b1 X Y e + a1 X Y e * b0 X Y f + ah X Y f e * k2 X Y) * v e))
      (fun f => k1 X Y * sum nf (fun e => u f * bh X Y f e * v e) + u f * a0 X Y f * sum nf (fun e => v e * b1 X Y e)
        + sum nf (fun e => v e * a1 X Y e) * (u f * b0 X Y f) + sum nf (fun e => u f * ah X Y f e * v e) * k2 X Y)).
    + rewrite !sum_plus, !sum_scal_l, !sum_scal_r. reflexivity.
    + intros f _. rewrite <- !sum_scal_l, <- !sum_scal_r, <- !sum_plus. apply sum_ext; intros; ring.
Qed.
