(** Witnesses and refutations for sparse regression. *)
From Coq Require Import Reals Arith Lia Lra List.
From Verif Require Import Base.Sums Base.Mat Base.PSD Model.Arrays Model.Kernels Model.LinAlg Model.Operations
  Model.RPCholesky Model.GPR Model.SGPR Spec.KernelSpec Spec.GPSpec Spec.SparseSpec
  Proofs.KernelSym Proofs.KernelDerivs Proofs.LinAlgFacts Proofs.Matvec Proofs.JetPSD
  Proofs.GPRFacts Proofs.GPRCov Proofs.GPRPack Proofs.SGPRFacts Proofs.SGPRIter Proofs.SGPRCov.
Open Scope R_scope.

Definition lin : kexp := KAtom None ALin.
Lemma lin_ok : forall nf, all_atoms (fun _ a => psd_atom a) lin /\ wf nf lin /\ ls_nonzero lin /\ dgram_ok lin.
Proof. intros. repeat split. left. repeat split. Qed.
Lemma lin_regular : forall nf m n x1 x2, regular nf lin m n x1 x2.
Proof. intros nf m n x1 x2 s t _ _. apply dgram_regular. left. repeat split. Qed.
Lemma lin_d01 : forall m n nv nd x1 x2 J1 J2 i c, d01kj m n 1 nv nd lin x1 x2 J1 J2 i c
  = J1 (i / nv)%nat O (i mod nv)%nat * J2 (c / nd)%nat O (c mod nd)%nat.
Proof. intros. simpl. unfold linear_d01kj, rs_4, gatherT. cbn [length nth active seq sum]. ring. Qed.
Lemma lin_kk : forall x1 x2 i j, kk 1 lin x1 x2 i j = x1 i O * x2 j O.
Proof. intros. unfold lin, kk. cbn. unfold linear_fast, mm, tr. cbn. unfold gatherM, gather. cbn [nth]. ring. Qed.

(** two inducing points with two derivative components each, one training point *)
Definition rf_J1 : Ten := fun s _ v => if andb (Nat.eqb s 0) (Nat.eqb v 1) then 1 else 0.
Definition rf_J2 : Ten := fun _ _ u => if Nat.eqb u 0 then 1 else 0.
Definition rf_z : Mat := fun i _ => if Nat.eqb i 1 then 1 else 0.
Lemma rf_op : forall sigma x1 x2,
  fst (sg_Ax_derivs_lhs_fun 2 1 1 2 2 lin sigma x1 rf_J1 x2 rf_J2) rf_z 1%nat O = sigma ^ 2 + / 10 ^ 10 /\
  mm 4 (fst (sg_A_derivs_lhs 2 1 1 2 2 lin sigma x1 rf_J1 x2 rf_J2)) rf_z 1%nat O = sigma ^ 2 + / 10 ^ 10 + 1.
Proof.
  intros sigma x1 x2. split.
  - rewrite sg_Axd_lhs; [|exact (proj1 (proj2 (lin_ok 1)))|exact (proj1 (proj2 (proj2 (lin_ok 1))))|apply lin_regular|simpl; lia].
    simpl (2 * 2)%nat. unfold mm, tr. cbn [sum]. rewrite !lin_d01. unfold delta, rf_z, rf_J1, rf_J2, shuffle. cbn. lra.
  - unfold sg_A_derivs_lhs. cbn [fst snd]. unfold mm. cbn [sum]. unfold sg_lhs, mm, tr, eye, jit10. simpl (1 * 2)%nat. cbn [sum]. rewrite !lin_d01. unfold delta, rf_z, rf_J1, rf_J2. simpl. lra.
Qed.
Lemma derivs_op_refuted : ~ (forall m n nf nv nd k sigma x1 J1 x2 J2 z i j, wf nf k -> ls_nonzero k -> dgram_ok k -> (i < m * nv)%nat ->
  fst (sg_Ax_derivs_lhs_fun m n nf nv nd k sigma x1 J1 x2 J2) z i j = mm (m * nv) (fst (sg_A_derivs_lhs m n nf nv nd k sigma x1 J1 x2 J2)) z i j).
Proof.
  intros H. specialize (H 2%nat 1%nat 1%nat 2%nat 2%nat lin 1 (fun _ _ => 0) rf_J1 (fun _ _ => 0) rf_J2 rf_z 1%nat O).
  destruct (rf_op 1 (fun _ _ => 0) (fun _ _ => 0)) as [E1 E2]. change (2 * 2)%nat with 4%nat in H. rewrite E1, E2 in H.
  destruct (lin_ok 1) as [_ [W [L D]]]. specialize (H W L D ltac:(simpl; lia)). lra.
Qed.

(** the variance reported for a point depends on what else is asked for *)
Definition ones : Mat := fun _ _ => 1.
Lemma sg_cov_ones : forall la, linalg_ok la -> forall n, (0 < n)%nat ->
  sg_predict_cov la 1 n 1 lin 1 ones ones O O = 1 - / (1 + / 10 ^ 10) + / (1 + INR n + / 10 ^ 10).
Proof.
  intros la ok n Hn. unfold sg_predict_cov, sg_A_lhs. cbn [fst snd]. pose proof (pos_INR n). assert (0 < / 10 ^ 10) by (apply Rinv_0_lt_compat, pow_lt; lra).
  assert (S : sym 1 (kk 1 lin ones ones)) by apply kk_symm. assert (P : psd 1 (kk 1 lin ones ones)) by (apply kk_psd, (lin_ok 1)).
  rewrite (sg_cov_formula la ok 1 n 1 _ _ (kk 1 lin ones ones) S P (fun _ _ => / (1 + / 10 ^ 10)) (fun _ _ => / (1 + INR n + / 10 ^ 10))); auto.
  - unfold mm, tr. cbn [sum]. rewrite !lin_kk. unfold ones. ring.
  - intros i j Hi Hj. replace i with O by lia. unfold mm. cbn [sum]. rewrite !lin_kk. unfold ones, eye, delta, jit10. cbn [Nat.eqb]. set (e := / 10 ^ 10) in *. field. lra.
  - intros i j Hi Hj. replace i with O by lia. unfold mm at 1. cbn [sum]. unfold sg_lhs, eye, delta, jit10, mm, tr. rewrite (sum_ext n _ (fun _ => 1)) by (intros; rewrite !lin_kk; unfold ones; ring).
    rewrite sum_const. rewrite !lin_kk. unfold ones. cbn [Nat.eqb]. set (e := / 10 ^ 10) in *. field. lra.
Qed.
Lemma sg_batch_refuted : forall la, linalg_ok la ->
  ~ (forall nf k sigma, all_atoms (fun _ a => psd_atom a) k -> forall m n n' xl x, (0 < n)%nat -> (n <= n')%nat ->
     sg_predict_cov la m n nf k sigma xl x O O = sg_predict_cov la m n' nf k sigma xl x O O).
Proof.
  intros la ok H. specialize (H 1%nat lin 1 (proj1 (lin_ok 1)) 1%nat 1%nat 2%nat ones ones ltac:(lia) ltac:(lia)).
  rewrite !sg_cov_ones in H by (auto; lia). simpl INR in H. assert (0 < / 10 ^ 10) by (apply Rinv_0_lt_compat, pow_lt; lra).
  assert (E : / (1 + 1 + / 10 ^ 10) = / (1 + (1 + 1) + / 10 ^ 10)) by lra. apply (f_equal Rinv) in E. rewrite !Rinv_inv in E by lra. lra.
Qed.
(** with one row, the data enter the variance only through the inducing points: GPR's variance at the same point tends to the noise *)
Lemma gpr_cov_ones : forall la, linalg_ok la -> forall p, predict_cov la p 1 lin 1 ones ones O O = 1 - INR p / (INR p + 1 + / 10 ^ 10).
Proof.
  intros la ok p. pose proof (pos_INR p). assert (0 < / 10 ^ 10) by (apply Rinv_0_lt_compat, pow_lt; lra).
  rewrite (predict_cov_formula la ok 1 lin 1 (proj1 (lin_ok 1)) p 1 ones ones (fun _ _ => / (INR p + 1 + / 10 ^ 10))); try lia.
  - unfold mm, tr. rewrite !lin_kk. rewrite (sum_ext p _ (fun _ => / (INR p + 1 + / 10 ^ 10))) by (intros; rewrite lin_kk; unfold ones; ring). rewrite sum_const. unfold ones. set (e := / 10 ^ 10) in *. field. lra.
  - intros i j Hi Hj. change (mm p (noisy 1 (kk 1 lin ones ones)) (fun _ _ => / (INR p + 1 + / 10 ^ 10)) i j = kk 1 lin ones ones i j). unfold mm, noisy.
    rewrite (sum_ext p _ (fun l => / (INR p + 1 + / 10 ^ 10) + delta i l * ((1 ^ 2 + / 10 ^ 10) * / (INR p + 1 + / 10 ^ 10)))) by (intros; rewrite lin_kk; unfold ones; ring).
    rewrite sum_plus, sum_const, sum_delta_l by auto. rewrite lin_kk. unfold ones. set (e := / 10 ^ 10) in *. field. lra.
Qed.
(** C47, C48 *)
Lemma ex_nystrom : nystrom 1 2 (fun _ _ => 1 - / 10 ^ 10) (fun _ j => INR (S j)) (fun i j => INR (S i) * INR (S j)).
Proof.
  exists (fun _ j => INR (S j)). split.
  - intros a j Ha Hj. cbn [sum]. ring.
  - intros i j Hi Hj. cbn [sum]. ring.
Qed.
