(** Positive semidefiniteness of Gram matrices. *)
From Coq Require Import Reals Lra Lia Arith List FunctionalExtensionality.
From Coquelicot Require Import Coquelicot.
From Verif Require Import Base.Sums Base.Mat Base.PSD Model.Arrays Model.Distances Model.Kernelizers
  Model.Kernels Spec.Partial Spec.KernelSpec Proofs.Deriv Proofs.KernelAtoms Proofs.KernelJets
  Proofs.KernelMethods Proofs.KernelDerivs Proofs.KernelSym.
Open Scope R_scope.

(** limits of PSD matrices *)
Lemma is_lim_seq_sum : forall n (f : nat -> nat -> R) (g : nat -> R),
  (forall i, (i < n)%nat -> is_lim_seq (fun k => f k i) (g i)) ->
  is_lim_seq (fun k => sum n (f k)) (sum n g).
Proof.
  induction n; intros f g H; simpl.
  - apply is_lim_seq_const.
  - apply (is_lim_seq_plus' (fun k => sum n (f k)) (fun k => f k n)).
    + apply IHn. intros; apply H; lia.
    + apply H; lia.
Qed.
Lemma psd_lim : forall n (A : nat -> Mat) (B : Mat),
  (forall k, psd n (A k)) ->
  (forall i j, (i < n)%nat -> (j < n)%nat -> is_lim_seq (fun k => A k i j) (B i j)) ->
  psd n B.
Proof.
  intros n A B HA HL v.
  assert (L : is_lim_seq (fun k => qf n (A k) v) (qf n B v)).
  { unfold qf. apply is_lim_seq_sum. intros i Hi. apply is_lim_seq_sum. intros j Hj.
    apply (is_lim_seq_mult' (fun k => v i * A k i j) (fun _ => v j)); [|apply is_lim_seq_const].
    apply (is_lim_seq_mult' (fun _ => v i) (fun k => A k i j)); [apply is_lim_seq_const|].
    now apply HL. }
  apply (is_lim_seq_le (fun _ => 0) (fun k => qf n (A k) v) 0 (qf n B v)); auto.
  - intros k. apply HA.
  - apply is_lim_seq_const.
Qed.

Definition const_mat (c : R) : Mat := fun _ _ => c.
Lemma psd_const : forall n c, 0 <= c -> psd n (const_mat c).
Proof.
  intros n c Hc v.
  replace (qf n (const_mat c) v) with (c * (sum n v * sum n v)).
  - apply Rmult_le_pos; auto. apply Rle_0_sqr.
  - unfold qf, const_mat. rewrite sum_mult, <- sum_scal_l. apply sum_ext; intros.
    rewrite <- sum_scal_l. apply sum_ext; intros; ring.
Qed.
Lemma psd_pow : forall n A d, sym n A -> psd n A -> psd n (fun i j => A i j ^ d).
Proof.
  intros n A d Hs H. induction d; simpl.
  - apply (psd_const n 1). lra.
  - apply (psd_ext n (hada (fun i j => A i j ^ d) A)).
    + intros i j _ _. unfold hada. ring.
    + apply psd_hada; auto.
Qed.
Lemma sum_f_R0_psd : forall n A N, sym n A -> psd n A ->
  psd n (fun i j => sum_f_R0 (fun k => / INR (fact k) * A i j ^ k) N).
Proof.
  intros n A N Hs H.
  assert (T : forall k, psd n (fun i j => / INR (fact k) * A i j ^ k)).
  { intros k. apply (psd_mscal n (/ INR (fact k)) (fun i j => A i j ^ k)).
    - left. apply Rinv_0_lt_compat. apply INR_fact_lt_0.
    - now apply psd_pow. }
  induction N.
  - exact (T O).
  - apply (psd_madd n (fun i j => sum_f_R0 (fun k => / INR (fact k) * A i j ^ k) N)
      (fun i j => / INR (fact (S N)) * A i j ^ S N)); auto.
Qed.
Lemma exp_lim : forall x, is_lim_seq (fun N => sum_f_R0 (fun k => / INR (fact k) * x ^ k) N) (exp x).
Proof.
  intros x. apply is_lim_seq_Reals. unfold exp. destruct (exist_exp x) as [l Hl]. exact Hl.
Qed.
Theorem psd_exp : forall n A, sym n A -> psd n A -> psd n (fun i j => exp (A i j)).
Proof.
  intros n A Hs H.
  apply (psd_lim n (fun N i j => sum_f_R0 (fun k => / INR (fact k) * A i j ^ k) N)).
  - intros. now apply sum_f_R0_psd.
  - intros. apply exp_lim.
Qed.
Lemma psd_diag_scale : forall n A g, psd n A -> psd n (fun i j => g i * A i j * g j).
Proof.
  intros n A g H v. specialize (H (fun i => v i * g i)).
  replace (qf n (fun i j => g i * A i j * g j) v) with (qf n A (fun i => v i * g i)); auto.
  unfold qf. apply sum_ext; intros; apply sum_ext; intros; ring.
Qed.
Lemma psd_sum : forall n m (A : nat -> Mat), (forall k, (k < m)%nat -> psd n (A k)) ->
  psd n (fun i j => sum m (fun k => A k i j)).
Proof.
  induction m; intros A H.
  - simpl. apply (psd_const n 0). lra.
  - simpl. apply (psd_madd n (fun i j => sum m (fun k => A k i j)) (A m)).
    + apply IHm. intros; apply H; lia.
    + apply H; lia.
Qed.

Section Gram.
Variables (nf n : nat) (X : Mat).

Lemma lin_gram : forall ds, psd n (fun i j => usum ds h_mul (X i) (X j)).
Proof. intros ds. apply (psd_gram n (length ds) (fun i a => gather ds (X i) a)). Qed.
Lemma lin_sym : forall ds, sym n (fun i j => usum ds h_mul (X i) (X j)).
Proof. intros ds i j _ _. apply sum_ext; intros. unfold h_mul. ring. Qed.

Lemma off_psd : forall ds off, 0 <= off -> psd n (fun i j => off + usum ds h_mul (X i) (X j)).
Proof.
  intros. apply (psd_madd n (const_mat off)); [now apply psd_const|apply lin_gram].
Qed.
Lemma off_sym : forall ds off, sym n (fun i j => off + usum ds h_mul (X i) (X j)).
Proof. intros ds off i j Hi Hj. f_equal. now apply (lin_sym ds). Qed.

(** (off + A)^d - off^d is a polynomial in A with non-negative coefficients *)
Lemma noint_psd : forall A off d, 0 <= off -> sym n A -> psd n A ->
  psd n (fun i j => (off + A i j) ^ d - off ^ d).
Proof.
  intros A off d Ho Hs H. induction d.
  - apply (psd_ext n (const_mat 0)); [intros i j _ _; unfold const_mat; simpl; ring|].
    apply psd_const; lra.
  - apply (psd_ext n (madd (mscal off (fun i j => (off + A i j) ^ d - off ^ d))
                           (hada (fun i j => (off + A i j) ^ d) A))).
    + intros i j _ _. unfold madd, mscal, hada. simpl. ring.
    + apply psd_madd; [now apply psd_mscal|]. apply psd_hada; auto.
      apply (psd_pow n (fun i j => off + A i j)).
      * intros i j Hi Hj. now rewrite (Hs i j).
      * apply (psd_madd n (const_mat off)); [now apply psd_const|auto].
Qed.

Lemma sq_split : forall ds l x y,
  usum ds (h_sq l) x y = sum (length ds) (fun a => (gather ds x a / l) ^ 2)
    + sum (length ds) (fun a => (gather ds y a / l) ^ 2)
    - 2 * sum (length ds) (fun a => gather ds x a / l * (gather ds y a / l)).
Proof.
  intros. unfold usum, h_sq. rewrite <- sum_scal_l, <- sum_plus, <- sum_minus.
  apply sum_ext; intros; ring.
Qed.
Lemma se_psd : forall ds l j, psd n (fun s t => exp (- (usum ds (h_sq l) (X s) (X t) + j))).
Proof.
  intros ds l j0.
  set (q := fun s => sum (length ds) (fun a => (gather ds (X s) a / l) ^ 2)).
  apply (psd_ext n (mscal (exp (- j0)) (fun s t => exp (- q s) *
     exp (2 * gram (length ds) (fun s a => gather ds (X s) a / l) s t) * exp (- q t)))).
  - intros s t _ _. unfold mscal. rewrite sq_split.
    rewrite <- !exp_plus. f_equal. unfold q, gram. ring.
  - apply psd_mscal; [left; apply exp_pos|].
    apply (psd_diag_scale n (fun s t => exp (2 * gram (length ds) (fun s a => gather ds (X s) a / l) s t))
             (fun s => exp (- q s))).
    apply (psd_exp n (mscal 2 (gram (length ds) (fun s a => gather ds (X s) a / l)))).
    + intros s t Hs Ht. unfold mscal. f_equal. now apply (sym_gram n).
    + apply psd_mscal; [lra|apply psd_gram].
Qed.

Lemma per_split : forall l p x y, l <> 0 -> p <> 0 ->
  -4 * h_per l p x y
  = - (2 / l) + 2 / l * (cos (2 * PI * x / p) * cos (2 * PI * y / p)
                         + sin (2 * PI * x / p) * sin (2 * PI * y / p)).
Proof.
  intros l p x y Hl Hp. rewrite h_per_eq. rewrite <- cos_minus.
  replace (2 * PI * x / p - 2 * PI * y / p) with (2 * (PI * (x - y) / p)) by (field; auto).
  rewrite cos_2a_sin. field; auto.
Qed.
Lemma per_psd : forall ds l p, 0 < l -> p <> 0 ->
  psd n (fun s t => exp (-4 * usum ds (h_per l p) (X s) (X t))).
Proof.
  intros ds l p Hl Hp.
  set (B := fun s t => sum (length ds) (fun a =>
      2 / l * (cos (2 * PI * gather ds (X s) a / p) * cos (2 * PI * gather ds (X t) a / p)
             + sin (2 * PI * gather ds (X s) a / p) * sin (2 * PI * gather ds (X t) a / p)))).
  apply (psd_ext n (mscal (exp (- (2 / l) * INR (length ds))) (fun s t => exp (B s t)))).
  - intros s t _ _. unfold mscal. rewrite <- exp_plus. f_equal. unfold B, usum.
    rewrite <- sum_scal_l. rewrite (sum_ext _ (fun i => -4 * h_per l p (gather ds (X s) i) (gather ds (X t) i))
      (fun a => - (2 / l) + 2 / l * (cos (2 * PI * gather ds (X s) a / p) * cos (2 * PI * gather ds (X t) a / p)
             + sin (2 * PI * gather ds (X s) a / p) * sin (2 * PI * gather ds (X t) a / p)))).
    + rewrite sum_plus. f_equal. rewrite sum_const. ring.
    + intros. apply per_split; lra.
  - apply psd_mscal; [left; apply exp_pos|]. apply psd_exp.
    + intros s t _ _. unfold B. apply sum_ext; intros; ring.
    + unfold B.
      apply (psd_sum n (length ds) (fun a s t =>
        2 / l * (cos (2 * PI * gather ds (X s) a / p) * cos (2 * PI * gather ds (X t) a / p)
             + sin (2 * PI * gather ds (X s) a / p) * sin (2 * PI * gather ds (X t) a / p)))).
      intros a Ha.
      apply (psd_ext n (mscal (2 / l) (madd
         (gram 1 (fun s _ => cos (2 * PI * gather ds (X s) a / p)))
         (gram 1 (fun s _ => sin (2 * PI * gather ds (X s) a / p)))))).
      * intros s t _ _. unfold mscal, madd, gram. simpl. ring.
      * apply psd_mscal; [left; apply Rdiv_lt_0_compat; lra|].
        apply psd_madd; apply psd_gram.
Qed.

End Gram.
