(** What the written lengthscale tangents of Matern32 and Matern52 return with one lengthscale per feature. *)
From Coq Require Import Reals Arith Lra.
From Coquelicot Require Import Coquelicot.
From Verif Require Import Base.Sums Base.Mat Model.Kernels Model.MaternJvp Spec.JvpSpec Proofs.KernelPropLemmas.
Open Scope R_scope.

Lemma rescale_div : forall x l c, l <> 0 -> x / (l + c * l) = x / l / (1 + c * 1).
Proof.
  intros x l c H. replace (l + c * l) with (l * (1 + c * 1)) by ring.
  unfold Rdiv. rewrite Rmult_assoc. f_equal. apply Rinv_mult.
Qed.
Lemma zero_tangent : forall na (t : Vec), sum na (fun a => t a * 0) = 0.
Proof. intros. apply sum_zero_ext. intros. ring. Qed.

Lemma m32_vec_rule : forall na (l x1 x2 dl : Vec), (forall a, (a < na)%nat -> l a <> 0) ->
  / 10 ^ 36 < 3 * sum na (fun a => (x1 a / l a - x2 a / l a) ^ 2) ->
  exists D, is_derive (fun t => m32_base_vec (fun a => l a + t * l a) na x1 x2) 0 D /\
            m32_jvp_l_vec l na x1 x2 dl = sum na (fun a => dl a / l a) * D.
Proof.
  intros na l x1 x2 dl L H.
  set (z1 := fun a => x1 a / l a). set (z2 := fun a => x2 a / l a).
  assert (H' : / 10 ^ 36 < 3 * sqdist na 1 z1 z2).
  { eapply Rlt_le_trans; [exact H|]. right. f_equal. apply sum_ext. intros. unfold z1, z2. field. auto. }
  pose proof (jvp32 na z1 z2 (fun _ => 0) (fun _ => 0) 1 1 R1_neq_R0 H') as J.
  exists (m32_jvp 1 na z1 z2 1 (fun _ => 0) (fun _ => 0)). split.
  - eapply is_derive_ext; [|exact J]. intros t. cbn beta. unfold m32_base, m32_base_vec. cbn zeta.
    replace (sum na (fun a => ((z1 a + t * 0) / (1 + t * 1) - (z2 a + t * 0) / (1 + t * 1)) ^ 2))
      with (sum na (fun a => (x1 a / (l a + t * l a) - x2 a / (l a + t * l a)) ^ 2)); [reflexivity|].
    apply sum_ext. intros a Ha. rewrite (rescale_div (x1 a)), (rescale_div (x2 a)) by (apply L, Ha).
    rewrite Rmult_0_r, !Rplus_0_r. reflexivity.
  - unfold m32_jvp. rewrite !zero_tangent, !Rplus_0_l, Rmult_1_r. unfold m32_jvp_l_vec, m32_t2_vec, m32_t2. cbn zeta.
    replace (sum na (fun b => (sqrt 3 * (z1 b / 1 - z2 b / 1)) ^ 2))
      with (sum na (fun b => (sqrt 3 * (x1 b / l b - x2 b / l b)) ^ 2)).
    2: { apply sum_ext. intros. unfold z1, z2. unfold Rdiv. rewrite Rinv_1, !Rmult_1_r. reflexivity. }
    rewrite <- sum_scal_r. apply sum_ext. intros a Ha. field. apply L, Ha.
Qed.
Lemma m52_vec_rule : forall na (l x1 x2 dl : Vec), (forall a, (a < na)%nat -> l a <> 0) ->
  / 10 ^ 36 < 5 * sum na (fun a => (x1 a / l a - x2 a / l a) ^ 2) ->
  exists D, is_derive (fun t => m52_base_vec (fun a => l a + t * l a) na x1 x2) 0 D /\
            m52_jvp_l_vec l na x1 x2 dl = sum na (fun a => dl a / l a) * D.
Proof.
  intros na l x1 x2 dl L H.
  set (z1 := fun a => x1 a / l a). set (z2 := fun a => x2 a / l a).
  assert (H' : / 10 ^ 36 < 5 * sqdist na 1 z1 z2).
  { eapply Rlt_le_trans; [exact H|]. right. f_equal. apply sum_ext. intros. unfold z1, z2. field. auto. }
  pose proof (jvp52 na z1 z2 (fun _ => 0) (fun _ => 0) 1 1 R1_neq_R0 H') as J.
  exists (m52_jvp 1 na z1 z2 1 (fun _ => 0) (fun _ => 0)). split.
  - eapply is_derive_ext; [|exact J]. intros t. cbn beta. unfold m52_base, m52_base_vec. cbn zeta.
    replace (sum na (fun a => ((z1 a + t * 0) / (1 + t * 1) - (z2 a + t * 0) / (1 + t * 1)) ^ 2))
      with (sum na (fun a => (x1 a / (l a + t * l a) - x2 a / (l a + t * l a)) ^ 2)); [reflexivity|].
    apply sum_ext. intros a Ha. rewrite (rescale_div (x1 a)), (rescale_div (x2 a)) by (apply L, Ha).
    rewrite Rmult_0_r, !Rplus_0_r. reflexivity.
  - unfold m52_jvp. rewrite !zero_tangent, !Rplus_0_l, Rmult_1_r. unfold m52_jvp_l_vec, m52_t2_vec, m52_t2. cbn zeta.
    replace (sum na (fun b => (sqrt 5 * (z1 b / 1 - z2 b / 1)) ^ 2))
      with (sum na (fun b => (sqrt 5 * (x1 b / l b - x2 b / l b)) ^ 2)).
    2: { apply sum_ext. intros. unfold z1, z2. unfold Rdiv. rewrite Rinv_1, !Rmult_1_r. reflexivity. }
    rewrite <- sum_scal_r. apply sum_ext. intros a Ha. field. apply L, Ha.
Qed.
(** two features with different lengthscales *)
Lemma ex_vec : (forall a, (a < 2)%nat -> (fun a => INR a + 1) a <> 0) /\
  / 10 ^ 36 < 3 * sum 2 (fun a => ((fun _ => 1) a / (INR a + 1) - (fun _ => 0) a / (INR a + 1)) ^ 2).
Proof.
  split.
  - intros a _. pose proof (pos_INR a). lra.
  - assert (/ 10 ^ 36 < 1).
    { rewrite <- Rinv_1. apply Rinv_lt_contravar; [|apply Rlt_pow_R1; [lra|apply Nat.lt_0_succ]].
      rewrite Rmult_1_l. apply pow_lt. lra. }
    eapply Rlt_le_trans; [exact H|]. simpl. lra.
Qed.
