(** Counterexamples and concrete instances used by Props/GPRProps.v. *)
From Coq Require Import Reals Arith Lia Lra List FunctionalExtensionality.
From Coquelicot Require Import Coquelicot.
From Verif Require Import Base.Sums Base.Mat Base.PSD Model.Arrays Model.Kernels Model.LinAlg Model.Operations
  Model.RPCholesky Model.GPR Spec.KernelSpec Spec.Det Spec.MVN Proofs.Deriv Proofs.KernelAtoms Proofs.KernelJets Proofs.KernelMethods
  Proofs.LinAlgFacts Proofs.Loops Proofs.KernelDerivs Proofs.KernelSym
  Proofs.KernelPropLemmas Proofs.Local Proofs.JetPSD Proofs.GPRFacts Proofs.DetFacts Proofs.GPRLml Proofs.CurveDeriv.
Import ListNotations.
Open Scope R_scope.

(** Matern12: derivative Gram matrix of two points, indefinite *)
Definition X01 : Mat := fun i _ => INR i.
Definition ones3 : Ten := fun _ _ _ => 1.
Lemma E01_nf1 : forall k x y u v, E01 1 k x y u v = u O * D01 1 k x y O O * v O.
Proof. intros. unfold E01. simpl. ring. Qed.
Lemma m12_gram_entry : forall i j, (i < 2)%nat -> (j < 2)%nat ->
  d01kj 2 2 1 1 1 (KAtom None (AM12 1)) X01 X01 ones3 ones3 i j
  = if Nat.eqb i j then 0 else - exp (- 1).
Proof.
  intros i j Hi Hj.
  assert (W : wf 1 (KAtom None (AM12 1))) by (exact I).
  replace i with (i * 1 + 0)%nat at 1 by lia. replace j with (j * 1 + 0)%nat at 1 by lia.
  rewrite d01kj_E01 by (auto; lia). rewrite E01_nf1. unfold jcol, ones3. rewrite Rmult_1_l, Rmult_1_r.
  assert (U : au 1 None (AM12 1) (X01 i) (X01 j) = (INR i - INR j) ^ 2).
  { unfold au, usum. simpl. unfold gather, h_sq, X01. simpl. field. }
  assert (T : 0 < tiny36 < 1).
  { split; [exact tiny36_pos|]. unfold tiny36. rewrite <- Rinv_1. apply Rinv_lt_contravar; [apply Rmult_lt_0_compat; [lra|]|]; try (apply pow_lt; lra).
    apply Rlt_pow_R1; [lra|lia]. }
  assert (Z : au 1 None (AM12 1) (X01 i) (X01 j) = 0 /\ i = j \/ au 1 None (AM12 1) (X01 i) (X01 j) = 1 /\ i <> j).
  { rewrite U. assert (Ci : i = O \/ i = 1%nat) by lia. assert (Cj : j = O \/ j = 1%nat) by lia.
    destruct Ci, Cj; subst; simpl; [left|right|right|left]; split; try lia; ring. }
  pose proof (atom_d01k_reg 1 None (AM12 1) (pt (X01 i)) (pt (X01 j)) 0 0 0 0 R1_neq_R0 ltac:(repeat constructor; simpl; lia)
     ltac:(lia) ltac:(lia)) as Q. simpl Nat.mul in Q. simpl Nat.add in Q.
  unfold D01. unfold d01k. rewrite Q.
  - unfold aS0, aS1, aS01, S0, S1, S01. simpl. unfold rmult01', rmult01''.
    change (pt (X01 i) O) with (X01 i). change (pt (X01 j) O) with (X01 j).
    destruct Z as [[Z E]|[Z E]]; rewrite Z.
    + rewrite (proj2 (Nat.eqb_eq i j) E). destruct (Rlt_dec tiny36 0); [lra|]. ring.
    + rewrite (proj2 (Nat.eqb_neq i j) E). destruct (Rlt_dec tiny36 1); [|lra].
      simpl. unfold m12_phi', m12_phi'', dd. replace (1 * (1 + 0)) with 1 by ring. rewrite sqrt_1.
      unfold gather, delta, h_sq_x, h_sq_y, h_sq_xy, X01. simpl.
      assert (E2 : (INR i - INR j) * (INR i - INR j) = 1) by (rewrite <- Z, U; ring).
      replace (- (1)) with (-1) by ring. set (ee := exp (-1)).
      transitivity (- (2 * ((INR i - INR j) * (INR i - INR j))) * ee + ee); [field|]. rewrite E2. ring.
  - simpl. change (pt (X01 i) O) with (X01 i). change (pt (X01 j) O) with (X01 j). destruct Z as [[-> _]|[-> _]]; lra.
Qed.
Lemma m12_gram_not_psd : exists n nf nv k X J, wf nf k /\ ls_nonzero k /\ all_atoms (fun _ a => psd_atom a) k /\
  ~ psd (n * nv) (d01kj n n nf nv nv k X X J J).
Proof.
  exists 2%nat, 1%nat, 1%nat, (KAtom None (AM12 1)), X01, ones3. split; [exact I|split; [exact R1_neq_R0|split; [exact I|]]].
  intro H. specialize (H (fun _ => 1)). unfold qf in H. change (2 * 1)%nat with 2%nat in H. cbn [sum] in H.
  rewrite !m12_gram_entry in H by lia. cbn [Nat.eqb] in H. pose proof (exp_pos (-1)). lra.
Qed.

(** several outputs: the matrix-free likelihood adds cross terms *)
Lemma lml_iter_multi_differs : forall la, linalg_ok la -> exists m o nf k sigma x y c,
  all_atoms (fun _ a => psd_atom a) k /\
  meq m o (mm m (A_lhs nf k sigma x x true) c) y /\
  lml_iter_of m o c y (ln (det m (A_lhs nf k sigma x x true))) <> lml_dense la m o nf k sigma x y zero_mean.
Proof.
  intros la ok. set (k := KAtom None (AConst 1)). set (x := fun (_ _ : nat) => 0).
  set (A := A_lhs 1 k 1 x x true). set (a := A O O).
  assert (HP : all_atoms (fun _ a => psd_atom a) k) by (simpl; lra).
  assert (Ha : 0 < a).
  { pose proof (A_pd 1 k 1 x 1 HP) as Q. exact (pd_diag 1 A Q O Nat.lt_0_1). }
  assert (HM : meq 1 2 (mm 1 A (fun _ _ => / a)) (fun _ _ => 1)).
  { intros i j Hi Hj. assert (i = O) by lia. subst. unfold mm. simpl. fold a. field. lra. }
  exists 1%nat, 2%nat, 1%nat, k, 1, x, (fun _ _ => 1), (fun _ _ => / a).
  split; [exact HP|split; [exact HM|]].
  intro E. apply (f_equal (Rmult (INR 1))) in E. unfold lml_dense in E.
  rewrite (lml_of_gen la ok 1 2 _ _ (fun _ _ => / a)) in E; auto.
  - unfold lml_iter_of in E. fold A in E. simpl in E. unfold zero_mean, mm, tr, dot in E. simpl in E.
    assert (Q : 0 < / a) by now apply Rinv_0_lt_compat.
    set (ld := ln (det 1 A)) in *. set (lp := ln (2 * PI)) in *. lra.
  - apply A_sym.
  - now apply A_pd.
  - intros i j Hi Hj. fold A. rewrite (HM i j Hi Hj). unfold zero_mean. ring.
Qed.

(** a kernel meeting every hypothesis used in the GPR theorems *)
Definition gp_kernel : kexp :=
  KSum (KAtom None (AM52 2)) (KProd (KAtom (Some [0; 2]%nat) ALin) (KAtom None (APer 1 3))).
Lemma gp_kernel_ok : all_atoms (fun _ a => psd_atom a) gp_kernel /\ wf 3 gp_kernel /\ ls_nonzero gp_kernel
  /\ exact gp_kernel /\ dgram_ok gp_kernel.
Proof.
  assert (E : exact gp_kernel) by (repeat split).
  split; [simpl; repeat split; try lra; try (apply Rgt_not_eq; lra)|]. split; [|split; [|split; [exact E|left; exact E]]].
  - simpl. repeat split.
    + nd.
    + intros d H. simpl in H. intuition lia.
  - simpl. repeat split; apply Rgt_not_eq; lra.
Qed.
(** test points moving along a jacobian column *)
Lemma ex_curve : forall t f, is_derive (fun z : R => INR t + z * INR f) 2 (INR f).
Proof. intros. auto_derive; auto. ring. Qed.
(** a pivot rule *)
Lemma ex_choose : forall i (p : Vec), ((fun (i : nat) (_ : Vec) => (i mod 3)%nat) i p < 3)%nat.
Proof. intros. apply Nat.mod_upper_bound. lia. Qed.
Lemma ex_perm : let p := fun i => (2 - i)%nat in
  (forall i, (i < 3)%nat -> (p i < 3)%nat) /\ (forall i j, (i < 3)%nat -> (j < 3)%nat -> p i = p j -> i = j).
Proof. split; intros; lia. Qed.
