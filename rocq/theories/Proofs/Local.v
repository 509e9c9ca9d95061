(** Entries of the kernel matrices depend only on the two samples concerned. *)
From Coq Require Import Reals Arith Lia Lra List FunctionalExtensionality.
From Verif Require Import Base.Sums Base.Mat Model.Arrays Model.Distances Model.Kernelizers Model.Kernels
  Spec.KernelSpec Proofs.Loops Proofs.KernelDerivs Proofs.KernelSym.
Open Scope R_scope.

Definition pt (x : Vec) : Mat := fun _ => x.
Lemma blk0_div : forall h f, (f < h)%nat -> (f / h)%nat = O.
Proof. intros. now apply Nat.div_small. Qed.
Lemma kk_loc : forall nf k X1 X2 s t, kk nf k X1 X2 s t = kk nf k (pt (X1 s)) (pt (X2 t)) O O.
Proof. intros. rewrite !kk_at. reflexivity. Qed.

Lemma atom_d0k_loc : forall nf ad a X1 X2 s f t, (f < nf)%nat ->
  atom_d0k nf ad a X1 X2 (s * nf + f)%nat t = atom_d0k nf ad a (pt (X1 s)) (pt (X2 t)) f O.
Proof.
  intros nf ad a X1 X2 s f t Hf.
  pose proof (blk_div s nf f Hf) as D. pose proof (blk_mod s nf f Hf) as M.
  pose proof (blk0_div nf f Hf) as D0. pose proof (Nat.mod_small f nf Hf) as M0.
  destruct a; simpl;
  unfold linear_d0k, poly_d0k, m52_d0k, grad0_kernelize, rs_row, tile_row, rep_row;
  rewrite ?D, ?M, ?D0, ?M0; reflexivity.
Qed.
Lemma atom_d01k_loc : forall nf ad a X1 X2 s f t e, (f < nf)%nat -> (e < nf)%nat ->
  atom_d01k nf ad a X1 X2 (s * nf + f)%nat (t * nf + e)%nat = atom_d01k nf ad a (pt (X1 s)) (pt (X2 t)) f e.
Proof.
  intros nf ad a X1 X2 s f t e Hf He.
  pose proof (blk_div s nf f Hf) as D. pose proof (blk_mod s nf f Hf) as M.
  pose proof (blk0_div nf f Hf) as D0. pose proof (Nat.mod_small f nf Hf) as M0.
  pose proof (blk_div t nf e He) as E. pose proof (blk_mod t nf e He) as F.
  pose proof (blk0_div nf e He) as E0. pose proof (Nat.mod_small e nf He) as F0.
  destruct a; simpl;
  unfold linear_d01k, poly_d01k, se_d01k, m52_d01k, grad01_kernelize, rs_4, tile_row, tile_col, rep_row, rep_col;
  rewrite ?D, ?M, ?D0, ?M0, ?E, ?F, ?E0, ?F0; reflexivity.
Qed.

(** pointwise first and mixed derivative kernels *)
Definition D0 (nf : nat) (k : kexp) (x y : Vec) (f : nat) : R := d0k nf k (pt x) (pt y) f O.
Definition D01 (nf : nat) (k : kexp) (x y : Vec) (f e : nat) : R := d01k nf k (pt x) (pt y) f e.

Lemma d0k_loc : forall nf k X1 X2 s f t, (f < nf)%nat ->
  d0k nf k X1 X2 (s * nf + f)%nat t = D0 nf k (X1 s) (X2 t) f.
Proof.
  intros nf k X1 X2 s f t Hf. unfold D0.
  induction k as [ad a|k1 IH1 k2 IH2|k1 IH1 k2 IH2]; simpl.
  - now apply atom_d0k_loc.
  - now rewrite IH1, IH2.
  - unfold rep_row. rewrite blk_div, blk0_div, IH1, IH2 by auto.
    now rewrite (kk_loc nf k1 X1 X2), (kk_loc nf k2 X1 X2).
Qed.
Lemma d1k_loc : forall nf k X1 X2 s f t, (f < nf)%nat ->
  d1k nf k X1 X2 s (t * nf + f)%nat = D0 nf k (X2 t) (X1 s) f.
Proof. intros. rewrite d1k_tr. now apply d0k_loc. Qed.
Lemma d1k_loc0 : forall nf k x y f, (f < nf)%nat -> d1k nf k (pt x) (pt y) O f = D0 nf k y x f.
Proof. intros. rewrite d1k_tr. reflexivity. Qed.
Lemma d01k_loc : forall nf k X1 X2 s f t e, (f < nf)%nat -> (e < nf)%nat ->
  d01k nf k X1 X2 (s * nf + f)%nat (t * nf + e)%nat = D01 nf k (X1 s) (X2 t) f e.
Proof.
  intros nf k X1 X2 s f t e Hf He. unfold D01.
  induction k as [ad a|k1 IH1 k2 IH2|k1 IH1 k2 IH2]; simpl.
  - now apply atom_d01k_loc.
  - now rewrite IH1, IH2.
  - unfold rep_row, rep_col. rewrite !blk_div, !blk0_div, IH1, IH2 by auto.
    rewrite !d0k_loc, !d1k_loc, !d1k_loc0 by auto.
    rewrite (kk_loc nf k1 X1 X2), (kk_loc nf k2 X1 X2). reflexivity.
Qed.
Lemma D0_partial : forall nf k x y f, wf nf k -> ls_nonzero k -> exact k -> (f < nf)%nat ->
  Spec.Partial.partial0 (kernel_at nf k) x y f (D0 nf k x y f).
Proof.
  intros nf k x y f H1 H2 H3 Hf. pose proof (d0k_partial nf k (pt x) (pt y) O f O H1 H2 H3 Hf) as P.
  exact P.
Qed.
