(** Kernel derivatives read the first nf features of each sample only. *)
From Coq Require Import Reals Arith Lia Lra List FunctionalExtensionality.
From Coquelicot Require Import Coquelicot.
From Verif Require Import Base.Sums Base.Mat Model.Arrays Model.Distances Model.Kernelizers Model.Kernels
  Spec.KernelSpec Proofs.Loops Proofs.KernelDerivs Proofs.KernelSym Proofs.Local Proofs.Contraction Proofs.JetPSD.
Open Scope R_scope.

Definition agree (nf : nat) (x x' : Vec) : Prop := forall d, (d < nf)%nat -> x d = x' d.
Lemma agree_refl : forall nf x, agree nf x x.
Proof. intros nf x d _. reflexivity. Qed.
Lemma agree_upd : forall nf x x' f t, agree nf x x' -> agree nf (upd x f t) (upd x' f t).
Proof. intros nf x x' f t H d Hd. unfold upd. destruct (Nat.eqb d f); auto. Qed.
Lemma dims_range : forall nf ad a, (0 < nf)%nat -> ad_ok nf ad -> (nth a (dims nf ad) O < nf)%nat.
Proof.
  intros nf ad a Hn H. destruct (Nat.lt_ge_cases a (length (dims nf ad))) as [L|L].
  - pose proof (nth_In (dims nf ad) O L) as I. destruct ad as [ds|]; cbn [dims] in *; [now apply H|]. apply in_seq in I. lia.
  - rewrite nth_overflow by auto. exact Hn.
Qed.
Lemma gather_agree : forall nf ad x x', (0 < nf)%nat -> ad_ok nf ad -> agree nf x x' -> gather (dims nf ad) x = gather (dims nf ad) x'.
Proof. intros nf ad x x' Hn W H. apply functional_extensionality. intro a. unfold gather. apply H. now apply dims_range. Qed.
Lemma gatherM_agree : forall nf ad x x', (0 < nf)%nat -> ad_ok nf ad -> agree nf x x' -> gatherM (dims nf ad) (pt x) = gatherM (dims nf ad) (pt x').
Proof. intros. unfold gatherM, pt. now rewrite (gather_agree nf ad x x'). Qed.
Lemma base_agree : forall nf ad a x x' y y', (0 < nf)%nat -> ad_ok nf ad -> agree nf x x' -> agree nf y y' -> kernel_base nf ad a x y = kernel_base nf ad a x' y'.
Proof. intros. unfold kernel_base. now rewrite (gather_agree nf ad x x'), (gather_agree nf ad y y'). Qed.
Lemma jac0_agree : forall nf ad a x x' y y' f, (f < nf)%nat -> ad_ok nf ad -> agree nf x x' -> agree nf y y' -> jac0 nf ad a x y f = jac0 nf ad a x' y' f.
Proof.
  intros nf ad a x x' y y' f Hf W A B. assert (Hn : (0 < nf)%nat) by lia. unfold jac0. cbv zeta.
  assert (E : Derive (fun t => kernel_base nf ad a (upd x f t) y) (x f) = Derive (fun t => kernel_base nf ad a (upd x' f t) y') (x' f)).
  { rewrite (A f Hf). apply Derive_ext. intro t. apply base_agree; auto using agree_upd. }
  destruct a; try exact E; rewrite (gather_agree nf ad x x'), (gather_agree nf ad y y') by auto; reflexivity.
Qed.
Lemma atom_d0k_agree : forall nf ad a x x' y y' f, (f < nf)%nat -> ad_ok nf ad -> agree nf x x' -> agree nf y y' ->
  atom_d0k nf ad a (pt x) (pt y) f O = atom_d0k nf ad a (pt x') (pt y') f O.
Proof.
  intros nf ad a x x' y y' f Hf W A B. assert (Hn : (0 < nf)%nat) by lia.
  pose proof (gatherM_agree nf ad x x' Hn W A) as GA. pose proof (gatherM_agree nf ad y y' Hn W B) as GB.
  assert (EB : forall i, pt y O (nth i (dims nf ad) O) = pt y' O (nth i (dims nf ad) O)) by (intro i; apply B; now apply dims_range).
  pose proof (Nat.mod_small f nf Hf) as M0. pose proof (blk0_div nf f Hf) as D0.
  unfold atom_d0k. cbv zeta. destruct a;
  unfold linear_d0k, poly_d0k, poly_c1, m52_d0k, m52_d, zdiff, grad0_kernelize, rs_row, tile_row, zeros; rewrite ?GA, ?GB, ?M0, ?D0; try reflexivity.
  all: try (apply scat_ext; intro i; now rewrite ?EB).
  all: apply jac0_agree; auto.
Qed.
Lemma atom_d01k_agree : forall nf ad a x x' y y' f e, (f < nf)%nat -> (e < nf)%nat -> ad_ok nf ad -> agree nf x x' -> agree nf y y' ->
  atom_d01k nf ad a (pt x) (pt y) f e = atom_d01k nf ad a (pt x') (pt y') f e.
Proof.
  intros nf ad a x x' y y' f e Hf He W A B. assert (Hn : (0 < nf)%nat) by lia.
  pose proof (gatherM_agree nf ad x x' Hn W A) as GA. pose proof (gatherM_agree nf ad y y' Hn W B) as GB.
  pose proof (Nat.mod_small f nf Hf) as M0. pose proof (blk0_div nf f Hf) as D0.
  pose proof (Nat.mod_small e nf He) as M1. pose proof (blk0_div nf e He) as D1.
  unfold atom_d01k. cbv zeta. destruct a;
  unfold linear_d01k, poly_d01k, poly_c1, poly_c2, se_d01k, se_ed2, m52_d01k, m52_d, zdiff, grad01_kernelize, rs_4, zeros; cbv zeta;
    rewrite ?GA, ?GB, ?M0, ?D0, ?M1, ?D1; try reflexivity.
  all: unfold hess01, pt; rewrite (B e He); apply Derive_ext; intro t; apply jac0_agree; auto using agree_upd.
Qed.
Lemma kk_agree : forall nf k x x' y y', (0 < nf)%nat -> wf nf k -> agree nf x x' -> agree nf y y' -> kk nf k (pt x) (pt y) O O = kk nf k (pt x') (pt y') O O.
Proof.
  intros nf k x x' y y' Hn W A B. induction k as [ad a|k1 I1 k2 I2|k1 I1 k2 I2]; cbn [kk].
  - unfold atom_k. cbv zeta. rewrite (gatherM_agree nf ad x x' Hn W A), (gatherM_agree nf ad y y' Hn W B). destruct a; try reflexivity.
    unfold kernelize, pt. now apply base_agree.
  - destruct W as [W1 W2]. now rewrite I1, I2.
  - destruct W as [W1 W2]. now rewrite I1, I2.
Qed.
Lemma D0_agree : forall nf k x x' y y' f, (f < nf)%nat -> wf nf k -> agree nf x x' -> agree nf y y' -> D0 nf k x y f = D0 nf k x' y' f.
Proof.
  intros nf k x x' y y' f Hf W A B. assert (Hn : (0 < nf)%nat) by lia. unfold D0. induction k as [ad a|k1 I1 k2 I2|k1 I1 k2 I2]; cbn [d0k].
  - now apply atom_d0k_agree.
  - destruct W as [W1 W2]. now rewrite I1, I2.
  - destruct W as [W1 W2]. unfold rep_row. rewrite I1, I2, blk0_div by auto. now rewrite (kk_agree nf k1 x x' y y'), (kk_agree nf k2 x x' y y').
Qed.
Lemma D01_agree : forall nf k x x' y y' f e, (f < nf)%nat -> (e < nf)%nat -> wf nf k -> agree nf x x' -> agree nf y y' -> D01 nf k x y f e = D01 nf k x' y' f e.
Proof.
  intros nf k x x' y y' f e Hf He W A B. assert (Hn : (0 < nf)%nat) by lia. unfold D01. induction k as [ad a|k1 I1 k2 I2|k1 I1 k2 I2]; cbn [d01k].
  - now apply atom_d01k_agree.
  - destruct W as [W1 W2]. now rewrite I1, I2.
  - destruct W as [W1 W2]. unfold rep_row, rep_col. rewrite I1, I2, !blk0_div by auto. rewrite !d1k_loc0 by auto.
    pose proof (D0_agree nf k1 x x' y y' f Hf W1 A B) as E1. pose proof (D0_agree nf k2 x x' y y' f Hf W2 A B) as E2. unfold D0 in E1, E2. rewrite E1, E2.
    rewrite (D0_agree nf k1 y y' x x' e), (D0_agree nf k2 y y' x x' e) by auto.
    now rewrite (kk_agree nf k1 x x' y y'), (kk_agree nf k2 x x' y y').
Qed.
(** contracted with jacobians *)
Lemma d0kj_agree : forall n m n' nf nv k X1 X1' X2 J J' i t, wf nf k -> (i < n * nv)%nat -> (t < m)%nat -> n' = n ->
  (forall s d, (s < n)%nat -> (d < nf)%nat -> X1 s d = X1' s d) -> (forall s d v, (s < n)%nat -> (d < nf)%nat -> (v < nv)%nat -> J s d v = J' s d v) ->
  d0kj n m nf nv k X1 X2 J i t = d0kj n' m nf nv k X1' X2 J' i t.
Proof.
  intros n m n' nf nv k X1 X1' X2 J J' i t W Hi Ht -> A B. destruct (blk_eq n nv i Hi) as [s [v [Hs [Hv ->]]]]. rewrite !d0kj_ctr by auto.
  apply sum_ext. intros f Hf. rewrite (B s f v), !d0k_loc by auto. f_equal. apply D0_agree; auto using agree_refl. intros d Hd. now apply A.
Qed.
Lemma d01kj_agree : forall n m nf nv1 nv2 k X1 X2 X2' J1 J2 J2' i j, wf nf k -> (i < n * nv1)%nat -> (j < m * nv2)%nat ->
  (forall s d, (s < m)%nat -> (d < nf)%nat -> X2 s d = X2' s d) -> (forall s d v, (s < m)%nat -> (d < nf)%nat -> (v < nv2)%nat -> J2 s d v = J2' s d v) ->
  d01kj n m nf nv1 nv2 k X1 X2 J1 J2 i j = d01kj n m nf nv1 nv2 k X1 X2' J1 J2' i j.
Proof.
  intros n m nf nv1 nv2 k X1 X2 X2' J1 J2 J2' i j W Hi Hj A B. destruct (blk_eq n nv1 i Hi) as [s [v [Hs [Hv ->]]]]. destruct (blk_eq m nv2 j Hj) as [t [u [Ht [Hu ->]]]].
  rewrite !d01kj_ctr by auto. apply sum_ext. intros f Hf. apply sum_ext. intros e He. rewrite (B t e u), !d01k_loc by auto. do 2 f_equal.
  apply D01_agree; auto using agree_refl. intros d Hd. now apply A.
Qed.
