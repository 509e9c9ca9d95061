(** A kernel with active dimensions is the plain kernel on the gathered features, derivatives included. *)
From Coq Require Import Reals Lra Lia Arith List.
From Coquelicot Require Import Coquelicot.
From Verif Require Import Base.Sums Base.Mat Model.Arrays Model.Distances Model.Kernelizers
  Model.Kernels Spec.Partial Spec.KernelSpec Proofs.Deriv Proofs.KernelAtoms
  Proofs.KernelJets Proofs.Loops Proofs.KernelMethods Proofs.Contraction Proofs.KernelDerivs
  Proofs.KernelPropLemmas.
Open Scope R_scope.

Lemma gather_seq : forall n x a, (a < n)%nat -> gather (seq 0 n) x a = x a.
Proof. intros. unfold gather. now rewrite seq_nth. Qed.
Lemma usum_gather : forall ds h x y,
  usum (seq 0 (length ds)) h (gather ds x) (gather ds y) = usum ds h x y.
Proof.
  intros. unfold usum. rewrite seq_length. apply sum_ext. intros. now rewrite !gather_seq by auto.
Qed.
Lemma delta_nodup : forall (ds : list nat) a b, NoDup ds -> (a < length ds)%nat -> (b < length ds)%nat ->
  delta (nth b ds O) (nth a ds O) = delta b a.
Proof.
  intros ds a b N Ha Hb. unfold delta. destruct (Nat.eqb_spec b a) as [->|D].
  - now rewrite Nat.eqb_refl.
  - destruct (Nat.eqb_spec (nth b ds O) (nth a ds O)) as [E|]; auto.
    exfalso. apply D. exact (proj1 (NoDup_nth ds O) N b a Hb Ha E).
Qed.
Lemma S0_gather : forall ds h x y a, NoDup ds -> (a < length ds)%nat ->
  S0 (seq 0 (length ds)) h (gather ds x) (gather ds y) a = S0 ds h x y (nth a ds O).
Proof.
  intros ds h x y a N Ha. unfold S0. rewrite seq_length. apply sum_ext. intros b Hb.
  rewrite !gather_seq by auto. rewrite seq_nth by auto. now rewrite delta_nodup by auto.
Qed.
Lemma S1_gather : forall ds h x y a, NoDup ds -> (a < length ds)%nat ->
  S1 (seq 0 (length ds)) h (gather ds x) (gather ds y) a = S1 ds h x y (nth a ds O).
Proof. exact S0_gather. Qed.
Lemma S01_gather : forall ds h x y a b, NoDup ds -> (a < length ds)%nat -> (b < length ds)%nat ->
  S01 (seq 0 (length ds)) h (gather ds x) (gather ds y) a b = S01 ds h x y (nth a ds O) (nth b ds O).
Proof.
  intros ds h x y a b N Ha Hb. unfold S01. rewrite seq_length. apply sum_ext. intros c Hc.
  rewrite !gather_seq by auto. rewrite seq_nth by auto. now rewrite !delta_nodup by auto.
Qed.

Lemma restrict_values : forall nf ds a x y,
  kernel_at nf (KAtom (Some ds) a) x y = kernel_at (length ds) (KAtom None a) (gather ds x) (gather ds y).
Proof.
  intros. rewrite !kernel_at_atom. unfold fkap, kap. cbn [dims]. now rewrite usum_gather.
Qed.
Lemma restrict_au : forall nf ds a x y, au (length ds) None a (gather ds x) (gather ds y) = au nf (Some ds) a x y.
Proof. intros. unfold au. cbn [dims]. apply usum_gather. Qed.
Lemma restrict_d0k : forall nf ds a X1 X2 s i t,
  ad_ok nf (Some ds) -> ls_ok a -> unclamped nf (Some ds) a (X1 s) (X2 t) -> (i < length ds)%nat ->
  d0k nf (KAtom (Some ds) a) X1 X2 (s * nf + nth i ds O)%nat t
  = d0k (length ds) (KAtom None a) (gatherM ds X1) (gatherM ds X2) (s * length ds + i)%nat t.
Proof.
  intros nf ds a X1 X2 s i t Had L U Hi. pose proof (ad_ok_lt nf (Some ds) Had i Hi) as Hlt. cbn [dims] in Hlt.
  assert (E : au (length ds) None a (gatherM ds X1 s) (gatherM ds X2 t) = au nf (Some ds) a (X1 s) (X2 t))
    by apply restrict_au.
  apply unclamped_aP in U. unfold d0k.
  rewrite !atom_d0k_entry; auto using ls_atom_l, seq_NoDup, aP_cond0.
  - rewrite E. f_equal. unfold aS0. cbn [dims]. symmetry. apply S0_gather; auto. exact (proj1 Had).
  - cbn [dims]. apply seq_NoDup.
  - rewrite E. now apply aP_cond0.
  - exact (proj1 Had).
Qed.
Lemma aP_cond01 : forall a u, aP a u -> cond01 a u.
Proof. destruct a; simpl; auto. Qed.
Lemma restrict_d01k : forall nf ds a X1 X2 s i t j,
  ad_ok nf (Some ds) -> ls_ok a -> unclamped nf (Some ds) a (X1 s) (X2 t) ->
  (i < length ds)%nat -> (j < length ds)%nat ->
  d01k nf (KAtom (Some ds) a) X1 X2 (s * nf + nth i ds O)%nat (t * nf + nth j ds O)%nat
  = d01k (length ds) (KAtom None a) (gatherM ds X1) (gatherM ds X2)
      (s * length ds + i)%nat (t * length ds + j)%nat.
Proof.
  intros nf ds a X1 X2 s i t j Had L U Hi Hj.
  pose proof (ad_ok_lt nf (Some ds) Had i Hi) as Hl1. pose proof (ad_ok_lt nf (Some ds) Had j Hj) as Hl2.
  cbn [dims] in Hl1, Hl2.
  assert (E : au (length ds) None a (gatherM ds X1 s) (gatherM ds X2 t) = au nf (Some ds) a (X1 s) (X2 t))
    by apply restrict_au.
  apply unclamped_aP in U. unfold d01k.
  rewrite !atom_d01k_entry; auto using ls_atom_l, aP_cond01.
  - rewrite E. unfold aS0, aS1, aS01. cbn [dims]. unfold gatherM.
    rewrite S0_gather, S1_gather, S01_gather; auto; exact (proj1 Had).
  - cbn [dims]. apply seq_NoDup.
  - rewrite E. now apply aP_cond01.
  - exact (proj1 Had).
Qed.
Lemma ex_C33_active : ad_ok 3 (Some (2 :: 0 :: nil)%nat) /\ ls_ok (AM32 2)
  /\ unclamped 3 (Some (2 :: 0 :: nil)%nat) (AM32 2) (fun _ => 0) (fun _ => 1).
Proof.
  refine (conj _ (conj _ _)).
  - split; [repeat constructor; simpl; intuition lia|simpl; intros d H; intuition lia].
  - simpl. lra.
  - unfold unclamped, sqd, gather. simpl. lra.
Qed.
