(** Finite sums of reals indexed by natural numbers. Generic library file. *)
From Coq Require Import Reals Lra Lia Arith List.
Import ListNotations.
Open Scope R_scope.

(** [sum n f] = f 0 + ... + f (n-1). *)
Fixpoint sum (n : nat) (f : nat -> R) : R :=
  match n with
  | O => 0
  | S k => sum k f + f k
  end.

Lemma sum_ext : forall n f g,
  (forall i, (i < n)%nat -> f i = g i) -> sum n f = sum n g.
Proof.
  induction n; intros f g H; simpl; [reflexivity|].
  rewrite (IHn f g), (H n); auto.
Qed.

Lemma sum_zero : forall n, sum n (fun _ => 0) = 0.
Proof. induction n; simpl; [reflexivity|rewrite IHn; ring]. Qed.

Lemma sum_zero_ext : forall n f, (forall i, (i < n)%nat -> f i = 0) -> sum n f = 0.
Proof. intros n f H. rewrite (sum_ext n f (fun _ => 0)); auto using sum_zero. Qed.

Lemma sum_plus : forall n f g, sum n (fun i => f i + g i) = sum n f + sum n g.
Proof. induction n; intros; simpl; [ring|rewrite IHn; ring]. Qed.

Lemma sum_minus : forall n f g, sum n (fun i => f i - g i) = sum n f - sum n g.
Proof. induction n; intros; simpl; [ring|rewrite IHn; ring]. Qed.

Lemma sum_opp : forall n f, sum n (fun i => - f i) = - sum n f.
Proof. induction n; intros; simpl; [ring|rewrite IHn; ring]. Qed.

Lemma sum_scal_l : forall n c f, sum n (fun i => c * f i) = c * sum n f.
Proof. induction n; intros; simpl; [ring|rewrite IHn; ring]. Qed.

Lemma sum_scal_r : forall n c f, sum n (fun i => f i * c) = sum n f * c.
Proof. induction n; intros; simpl; [ring|rewrite IHn; ring]. Qed.

Lemma sum_div : forall n c f, sum n (fun i => f i / c) = sum n f / c.
Proof. intros. unfold Rdiv. apply sum_scal_r. Qed.

Lemma sum_const : forall n c, sum n (fun _ => c) = INR n * c.
Proof.
  induction n; intros; [simpl; ring|].
  rewrite S_INR. simpl. rewrite IHn. ring.
Qed.

Lemma sum_swap : forall n m f,
  sum n (fun i => sum m (fun j => f i j)) = sum m (fun j => sum n (fun i => f i j)).
Proof.
  induction n; intros m f; simpl.
  - now rewrite sum_zero.
  - rewrite IHn, <- sum_plus. reflexivity.
Qed.

Lemma sum_nonneg : forall n f, (forall i, (i < n)%nat -> 0 <= f i) -> 0 <= sum n f.
Proof.
  induction n; intros f H; simpl; [lra|].
  assert (0 <= sum n f) by (apply IHn; auto).
  assert (0 <= f n) by auto. lra.
Qed.

Lemma sum_le : forall n f g, (forall i, (i < n)%nat -> f i <= g i) -> sum n f <= sum n g.
Proof.
  induction n; intros f g H; simpl; [lra|].
  assert (sum n f <= sum n g) by (apply IHn; auto).
  assert (f n <= g n) by auto. lra.
Qed.

Lemma sum_nonneg_zero : forall n f,
  (forall i, (i < n)%nat -> 0 <= f i) -> sum n f = 0 ->
  forall i, (i < n)%nat -> f i = 0.
Proof.
  induction n; intros f H H0 i Hi; [lia|].
  simpl in H0.
  assert (0 <= sum n f) by (apply sum_nonneg; auto).
  assert (0 <= f n) by auto.
  destruct (Nat.eq_dec i n) as [->|]; [lra|].
  apply IHn; [auto|lra|lia].
Qed.

Lemma sum_term_le : forall n f, (forall i, (i < n)%nat -> 0 <= f i) ->
  forall i, (i < n)%nat -> f i <= sum n f.
Proof.
  induction n; intros f H i Hi; [lia|]. simpl.
  assert (0 <= sum n f) by (apply sum_nonneg; auto).
  assert (0 <= f n) by auto.
  destruct (Nat.eq_dec i n) as [->|]; [lra|].
  assert (f i <= sum n f) by (apply IHn; auto; lia). lra.
Qed.

Lemma sum_pos : forall n f, (forall i, (i < n)%nat -> 0 <= f i) ->
  (exists i, (i < n)%nat /\ 0 < f i) -> 0 < sum n f.
Proof.
  intros n f H [i [Hi Hf]].
  pose proof (sum_term_le n f H i Hi). lra.
Qed.

Lemma sum_abs_le : forall n f, Rabs (sum n f) <= sum n (fun i => Rabs (f i)).
Proof.
  induction n; intros f; simpl; [rewrite Rabs_R0; lra|].
  eapply Rle_trans; [apply Rabs_triang|]. specialize (IHn f). lra.
Qed.

(** splitting *)
Lemma sum_app : forall n m f,
  sum (n + m) f = sum n f + sum m (fun i => f (n + i)%nat).
Proof.
  intros n m; revert n; induction m; intros n f.
  - rewrite Nat.add_0_r. simpl. ring.
  - rewrite Nat.add_succ_r. simpl. rewrite IHm. ring.
Qed.

Lemma sum_S_l : forall n f, sum (S n) f = f O + sum n (fun i => f (S i)).
Proof. intros. change (S n) with (1 + n)%nat. rewrite sum_app. simpl. ring. Qed.

(** blocks: an index of a row-major flattened (n, d) array is i*d+v *)
Lemma sum_block : forall n d f,
  sum (n * d) f = sum n (fun i => sum d (fun v => f (i * d + v)%nat)).
Proof.
  induction n; intros d f; [reflexivity|].
  replace (S n * d)%nat with (n * d + d)%nat by lia.
  rewrite sum_app, IHn. reflexivity.
Qed.

(** Kronecker delta *)
Definition delta (i j : nat) : R := if Nat.eqb i j then 1 else 0.

Lemma delta_same : forall i, delta i i = 1.
Proof. intros. unfold delta. now rewrite Nat.eqb_refl. Qed.

Lemma delta_diff : forall i j, i <> j -> delta i j = 0.
Proof. intros i j H. unfold delta. now rewrite (proj2 (Nat.eqb_neq i j) H). Qed.

Lemma delta_sym : forall i j, delta i j = delta j i.
Proof. intros. unfold delta. now rewrite Nat.eqb_sym. Qed.

Lemma sum_delta_l : forall n i f, (i < n)%nat -> sum n (fun j => delta i j * f j) = f i.
Proof.
  induction n; intros i f Hi; [lia|]. simpl.
  destruct (Nat.eq_dec i n) as [->|Hn].
  - rewrite delta_same, sum_zero_ext; [ring|].
    intros j Hj. rewrite delta_diff by lia. ring.
  - rewrite IHn by lia. rewrite delta_diff by lia. ring.
Qed.

Lemma sum_delta_l' : forall n i f, (i < n)%nat -> sum n (fun j => delta j i * f j) = f i.
Proof.
  intros n i f H. rewrite <- (sum_delta_l n i f H). apply sum_ext.
  intros; now rewrite delta_sym.
Qed.

Lemma sum_delta_r : forall n i f, (i < n)%nat -> sum n (fun j => f j * delta i j) = f i.
Proof.
  intros n i f H. rewrite <- (sum_delta_l n i f H). apply sum_ext. intros; ring.
Qed.

Lemma sum_delta_r' : forall n i f, (i < n)%nat -> sum n (fun j => f j * delta j i) = f i.
Proof.
  intros n i f H. rewrite <- (sum_delta_l' n i f H). apply sum_ext. intros; ring.
Qed.

Lemma sum_delta_out : forall n i f, (n <= i)%nat -> sum n (fun j => delta i j * f j) = 0.
Proof.
  intros n i f H. apply sum_zero_ext. intros j Hj. rewrite delta_diff by lia. ring.
Qed.

(** exactly one nonzero term *)
Lemma sum_single : forall n i f, (i < n)%nat ->
  (forall j, (j < n)%nat -> j <> i -> f j = 0) -> sum n f = f i.
Proof.
  intros n i f Hi H. rewrite <- (sum_delta_l n i f Hi). apply sum_ext.
  intros j Hj. destruct (Nat.eq_dec i j) as [->|Hn].
  - rewrite delta_same; ring.
  - rewrite delta_diff by auto. rewrite H by auto. ring.
Qed.

(** distributivity *)
Lemma sum_mult : forall n m f g,
  sum n f * sum m g = sum n (fun i => sum m (fun j => f i * g j)).
Proof.
  intros. rewrite <- sum_scal_r. apply sum_ext. intros. now rewrite sum_scal_l.
Qed.

(** permutation of the index range *)
Lemma sum_reindex : forall n (p q : nat -> nat) f,
  (forall i, (i < n)%nat -> (p i < n)%nat /\ q (p i) = i) ->
  (forall i, (i < n)%nat -> (q i < n)%nat /\ p (q i) = i) ->
  sum n (fun i => f (p i)) = sum n f.
Proof.
  intros n p q f Hp Hq.
  transitivity (sum n (fun i => sum n (fun j => delta (p i) j * f j))).
  - apply sum_ext. intros i Hi. rewrite sum_delta_l; [reflexivity|apply Hp; auto].
  - rewrite sum_swap. apply sum_ext. intros j Hj.
    rewrite (sum_single n (q j)).
    + destruct (Hq j Hj) as [_ E]. rewrite E, delta_same. ring.
    + apply Hq; auto.
    + intros i Hi Hne. rewrite delta_diff; [ring|].
      intro E. apply Hne. rewrite <- E. symmetry. apply Hp; auto.
Qed.

Lemma sum_square_zero : forall n f, sum n (fun i => f i * f i) = 0 ->
  forall i, (i < n)%nat -> f i = 0.
Proof.
  intros n f H i Hi.
  assert (f i * f i = 0).
  { apply (sum_nonneg_zero n (fun i => f i * f i)); auto. intros; nra. }
  nra.
Qed.

(** Cauchy–Schwarz *)
Lemma cauchy_schwarz : forall n f g,
  (sum n (fun i => f i * g i)) * (sum n (fun i => f i * g i)) <=
  sum n (fun i => f i * f i) * sum n (fun i => g i * g i).
Proof.
  intros n f g.
  set (A := sum n (fun i => f i * f i)).
  set (B := sum n (fun i => f i * g i)).
  set (C := sum n (fun i => g i * g i)).
  assert (HA : 0 <= A) by (apply sum_nonneg; intros; nra).
  assert (HC : 0 <= C) by (apply sum_nonneg; intros; nra).
  assert (H : forall t, 0 <= A * t * t + 2 * B * t + C).
  { intro t. replace (A * t * t + 2 * B * t + C)
      with (sum n (fun i => (f i * t + g i) * (f i * t + g i))).
    - apply sum_nonneg. intros; apply Rle_0_sqr.
    - unfold A, B, C. rewrite <- !sum_scal_r, <- !sum_scal_l, <- !sum_scal_r, <- !sum_plus.
      apply sum_ext. intros; ring. }
  destruct (Rle_lt_or_eq_dec 0 A HA) as [HA'|HA'].
  - specialize (H (- B / A)).
    replace (A * (- B / A) * (- B / A) + 2 * B * (- B / A) + C) with (C - B * B / A) in H
      by (field; lra).
    assert (B * B / A <= C) by lra.
    apply (Rmult_le_compat_r A) in H0; [|lra].
    replace (B * B / A * A) with (B * B) in H0 by (field; lra). nra.
  - assert (B = 0).
    { unfold B. apply sum_zero_ext. intros i Hi.
      rewrite (sum_square_zero n f); auto. ring. }
    rewrite H0. rewrite <- HA'. lra.
Qed.
