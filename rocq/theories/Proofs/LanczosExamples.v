(** A matrix of order two meeting the hypotheses of the Lanczos theorems for every probe. *)
From Coq Require Import Reals Arith Lia Lra List.
From Verif Require Import Base.Sums Base.Mat Model.Arrays Model.Lanczos Spec.LanczosSpec.
Open Scope R_scope.

(** diag(1, 2) *)
Definition ex_A : Mat := fun i j => if Nat.eqb i j then (if Nat.eqb i 0 then 1 else 2) else 0.
Definition ex_mv : Vec -> Vec := fun z i => if Nat.eqb i 0 then z i else 2 * z i.
Definition ex_r : R := / sqrt 2.
(** eigenvalues and eigenvectors of ((3/2, 1/2), (1/2, 3/2)) *)
Definition ex_eigh (_ : nat) (_ : Mat) : Vec * Mat :=
  ((fun i => if Nat.eqb i 0 then 1 else 2), (fun i j => if (Nat.eqb i 1 && Nat.eqb j 0)%bool then - ex_r else ex_r)).
Lemma ex_r2 : ex_r * ex_r = / 2.
Proof. unfold ex_r. rewrite <- Rinv_mult. rewrite sqrt_sqrt by lra. reflexivity. Qed.
Lemma ex_mv_ok : forall z i, (i < 2)%nat -> ex_mv z i = mv 2 ex_A z i.
Proof. intros z i H. unfold mv, ex_A, ex_mv. destruct i as [|[|i]]; [| |lia]; cbn; ring. Qed.
Lemma ex_eigen : eigen 2 ex_A (fun i => if Nat.eqb i 0 then 1 else 2) eye.
Proof.
  split; [|split]; intros i j Hi Hj; destruct i as [|[|i]]; try lia; destruct j as [|[|j]]; try lia; unfold mm, tr, eye, delta, ex_A; cbn; ring.
Qed.
Lemma ex_two : at_most 2 2 (fun i => if Nat.eqb i 0 then 1 else 2).
Proof. exists (1 :: 2 :: nil). split; [reflexivity|]. intros k _. destruct (Nat.eqb k 0); cbn; auto. Qed.
Lemma ex_low : forall k, (k < 2)%nat -> / 10 ^ 36 <= (if Nat.eqb k 0 then 1 else 2).
Proof.
  intros k _. assert (/ 10 ^ 36 <= 1) by (rewrite <- Rinv_1; apply Rinv_le_contravar; [lra|apply pow_R1_Rle; lra]). destruct (Nat.eqb k 0); lra.
Qed.
Lemma ex_T : forall s draw, is_sign 2 s -> let T := fst (lanczos_tridiagonal ex_mv 2 2 (fun i => s i / sqrt (INR 2)) draw) in
  T 0%nat 0%nat = 3 / 2 /\ T 0%nat 1%nat = 1 / 2 /\ T 1%nat 0%nat = 1 / 2 /\ T 1%nat 1%nat = 3 / 2.
Proof.
  intros s draw H. pose proof ex_r2 as R2.
  assert (S0 : s 0%nat * s 0%nat = 1) by (destruct (H 0%nat) as [-> | ->]; [lia|ring|ring]).
  assert (S1 : s 1%nat * s 1%nat = 1) by (destruct (H 1%nat) as [-> | ->]; [lia|ring|ring]).
  set (v1 := fun i => s i / sqrt (INR 2)).
  assert (V0 : v1 0%nat = s 0%nat * ex_r) by (unfold v1, ex_r, Rdiv; cbn; f_equal; f_equal; f_equal; ring).
  assert (V1 : v1 1%nat = s 1%nat * ex_r) by (unfold v1, ex_r, Rdiv; cbn; f_equal; f_equal; f_equal; ring).
  assert (Al : dot 2 (ex_mv v1) v1 = 3 / 2).
  { unfold dot, ex_mv. cbn. rewrite V0, V1. replace (s 0%nat * ex_r * (s 0%nat * ex_r)) with (s 0%nat * s 0%nat * (ex_r * ex_r)) by ring.
    replace (2 * (s 1%nat * ex_r) * (s 1%nat * ex_r)) with (2 * (s 1%nat * s 1%nat * (ex_r * ex_r))) by ring. rewrite S0, S1, R2. lra. }
  assert (B : vnorm 2 (lz_w (lz_init 2 ex_mv v1)) = 1 / 2).
  { unfold vnorm. cbn [lz_w lz_init]. rewrite Al. unfold dot, ex_mv. cbn. rewrite V0, V1.
    match goal with |- sqrt ?x = _ => replace x with ((1 / 2) * (1 / 2)) end; [apply sqrt_square; lra|].
    replace (0 + (s 0%nat * ex_r - 3 / 2 * (s 0%nat * ex_r)) * (s 0%nat * ex_r - 3 / 2 * (s 0%nat * ex_r)) +
      (2 * (s 1%nat * ex_r) - 3 / 2 * (s 1%nat * ex_r)) * (2 * (s 1%nat * ex_r) - 3 / 2 * (s 1%nat * ex_r)))
      with (/ 4 * (s 0%nat * s 0%nat) * (ex_r * ex_r) + / 4 * (s 1%nat * s 1%nat) * (ex_r * ex_r)) by field. rewrite S0, S1, R2. lra. }
  assert (TH : beta_threshold < 1 / 2).
  { unfold beta_threshold. replace (1 / 2) with (/ 2) by lra. apply Rinv_lt_contravar; [apply Rmult_lt_0_compat; [lra|apply pow_lt; lra]|]. cbn [pow]. lra. }
  cbv zeta. unfold lanczos_tridiagonal. cbn [Nat.sub fori fst]. unfold lz_step. cbn [lz_T]. unfold set_entry at 1 2 3 4 5 6 7 8 9 10 11 12. cbn [Nat.eqb Nat.add andb].
  change (lz_beta (lz_init 2 ex_mv v1)) with (vnorm 2 (lz_w (lz_init 2 ex_mv v1))). rewrite B. cbn [lz_init lz_T lz_w].
  split; [unfold set_entry; cbn; exact Al|]. split; [reflexivity|]. split; [reflexivity|].
  destruct (Rlt_dec beta_threshold (1 / 2)); [|contradiction]. rewrite Al. unfold dot, ex_mv. cbn. rewrite V0, V1.
  replace (0 + (s 0%nat * ex_r - 3 / 2 * (s 0%nat * ex_r)) / (1 / 2) * ((s 0%nat * ex_r - 3 / 2 * (s 0%nat * ex_r)) / (1 / 2)) +
    2 * ((2 * (s 1%nat * ex_r) - 3 / 2 * (s 1%nat * ex_r)) / (1 / 2)) * ((2 * (s 1%nat * ex_r) - 3 / 2 * (s 1%nat * ex_r)) / (1 / 2)))
    with ((s 0%nat * s 0%nat) * (ex_r * ex_r) + 2 * ((s 1%nat * s 1%nat) * (ex_r * ex_r))) by field. rewrite S0, S1, R2. lra.
Qed.
Lemma ex_half : / 10 ^ 12 < 1 / 2.
Proof. replace (1 / 2) with (/ 2) by lra. apply Rinv_lt_contravar; [apply Rmult_lt_0_compat; [lra|apply pow_lt; lra]|]. cbn [pow]. lra. Qed.
Lemma ex_probe : forall s draw, is_sign 2 s -> probe_ok 2 2 ex_mv draw ex_eigh s.
Proof.
  intros s draw H. destruct (ex_T s draw H) as [T00 [T01 [T10 T11]]]. unfold probe_ok. cbv zeta in *.
  destruct (lanczos_tridiagonal ex_mv 2 2 (fun i => s i / sqrt (INR 2)) draw) as [T V]. cbn [fst snd] in *. pose proof ex_half as EH. pose proof ex_r2 as R2.
  split; [|split].
  - intros j Hj L. assert (j = 0%nat) as -> by lia. rewrite T01 in L. lra.
  - intros j Hj. assert (j = 0%nat) as -> by lia. right. rewrite T01. exact EH.
  - split; [|split]; intros i j Hi Hj; destruct i as [|[|i]]; try lia; destruct j as [|[|j]]; try lia; unfold mm, tr, eye, delta; cbn; rewrite ?T00, ?T01, ?T10, ?T11; lra.
Qed.
