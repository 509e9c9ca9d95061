(** Linear algebra facts, and a reference implementation of the library routines. *)
From Coq Require Import Reals Arith Lia Lra.
From Verif Require Import Base.Sums Base.Mat Base.PSD Model.LinAlg.
Open Scope R_scope.

Lemma mm_col : forall n A B i j, mm n A B i j = mv n A (fun k => B k j) i.
Proof. reflexivity. Qed.
Lemma mm_ext : forall n m o A A' B B', meq n m A A' -> meq m o B B' -> meq n o (mm m A B) (mm m A' B').
Proof. intros n m o A A' B B' H1 H2 i j Hi Hj. apply sum_ext. intros. rewrite H1, H2; auto. Qed.
Lemma mm_eye_l : forall n o B, meq n o (mm n eye B) B.
Proof. intros n o B i j Hi Hj. exact (sum_delta_l n i (fun k => B k j) Hi). Qed.
Lemma mm_eye_r : forall n m A, meq n m (mm m A eye) A.
Proof. intros n m A i j Hi Hj. exact (sum_delta_r' m j (fun k => A i k) Hj). Qed.
Lemma mv_eye : forall n v, veq n (mv n eye v) v.
Proof. intros n v i Hi. exact (sum_delta_l n i v Hi). Qed.
Lemma mm_tr : forall n A B i j, mm n (tr B) (tr A) i j = mm n A B j i.
Proof. intros. unfold mm, tr. apply sum_ext. intros. ring. Qed.

Lemma pd_nonsing : forall n A, pd n A -> nonsing n A.
Proof. intros n A H v Hv. exact (pd_inj0 n A v H Hv). Qed.
Lemma solve_unique : forall n o A X Y, nonsing n A -> meq n o (mm n A X) (mm n A Y) -> meq n o X Y.
Proof.
  intros n o A X Y H E i j Hi Hj.
  assert (Z : X i j - Y i j = 0); [|lra].
  apply (H (fun i => X i j - Y i j)); auto. intros l Hl. rewrite mv_sub.
  specialize (E l j Hl Hj). rewrite !mm_col in E. lra.
Qed.

(** ** reference implementation *)
Definition ata (n : nat) (A : Mat) : Mat := mm n (tr A) A.
Lemma ata_sym : forall n A, sym n (ata n A).
Proof. intros n A i j _ _. unfold ata, mm, tr. apply sum_ext. intros. ring. Qed.
Lemma ata_qf : forall n A v, qf n (ata n A) v = dot n (mv n A v) (mv n A v).
Proof.
  intros. rewrite qf_dot. unfold ata. rewrite dot_mv_tr.
  rewrite (dot_ext n (mv n (tr (mm n (tr A) A)) v) v (mv n (tr A) (mv n A v)) v).
  - rewrite dot_comm. symmetry. rewrite dot_mv_tr. apply dot_comm.
  - intros i Hi. rewrite <- mv_mm. apply sum_ext. intros j Hj. f_equal. unfold tr at 1. now apply ata_sym.
  - intros i Hi. reflexivity.
Qed.
Lemma ata_pd : forall n A, nonsing n A -> pd n (ata n A).
Proof.
  intros n A H v [i [Hi Hv]]. rewrite ata_qf.
  destruct (nonzero_dec n (mv n A v)) as [N|N]; [now apply dot_pos|].
  exfalso. apply Hv. now apply (H v N).
Qed.
(** (A^T A)^-1 A^T is a right inverse of a non-singular square A: I - A (A^T A)^-1 A^T is a
    symmetric idempotent of trace 0 *)
Definition pinv (n : nat) (A : Mat) : Mat := mm n (chol_inv n (ata n A)) (tr A).
Lemma pinv_left : forall n A, nonsing n A -> meq n n (mm n (pinv n A) A) eye.
Proof.
  intros n A H i j Hi Hj. unfold pinv. rewrite mm_assoc.
  apply (pd_inv_left n (ata n A)); auto; [now apply ata_pd|].
  apply chol_inv_spec; [apply ata_sym|now apply ata_pd].
Qed.
Lemma acat_sym : forall n A C, sym n C -> forall i j, mm n A (mm n C (tr A)) i j = mm n A (mm n C (tr A)) j i.
Proof.
  intros n A C H i j.
  assert (E : forall i j, mm n A (mm n C (tr A)) i j = sum n (fun a => sum n (fun b => A i a * C a b * A j b))).
  { intros. unfold mm, tr. apply sum_ext. intros a Ha. rewrite <- sum_scal_l. apply sum_ext. intros; ring. }
  rewrite !E, sum_swap. apply sum_ext. intros a Ha. apply sum_ext. intros b Hb. rewrite (H b a) by auto. ring.
Qed.
Lemma pinv_right : forall n A, nonsing n A -> meq n n (mm n A (pinv n A)) eye.
Proof.
  intros n A H.
  set (P := mm n A (pinv n A)).
  assert (Inv : is_inv n (ata n A) (chol_inv n (ata n A)))
    by (apply chol_inv_spec; [apply ata_sym|now apply ata_pd]).
  assert (Sy : sym n (chol_inv n (ata n A)))
    by (apply (inv_sym n (ata n A)); auto; [apply ata_sym|now apply ata_pd]).
  assert (Ps : forall i j, P i j = P j i) by (intros; now apply acat_sym).
  assert (Pid : meq n n (mm n P P) P).
  { intros i j Hi Hj. unfold P at 1. rewrite mm_assoc. unfold P at 2. apply sum_ext. intros l Hl. f_equal.
    unfold P. rewrite <- mm_assoc. revert l j Hl Hj. change (meq n n (mm n (mm n (pinv n A) A) (pinv n A)) (pinv n A)).
    eapply meq_trans; [apply mm_ext; [now apply pinv_left|apply meq_refl]|apply mm_eye_l]. }
  set (Q := fun i j => eye i j - P i j).
  assert (Qid : forall i, (i < n)%nat -> sum n (fun j => Q i j * Q i j) = Q i i).
  { intros i Hi. unfold Q.
    rewrite (sum_ext n _ (fun j => (eye i j * eye i j - 2 * (eye i j * P i j)) + P i j * P j i))
      by (intros l Hl; rewrite (Ps l i); ring).
    rewrite sum_plus, sum_minus, sum_scal_l. unfold eye at 1 3. rewrite !sum_delta_l by auto.
    change (sum n (fun j => P i j * P j i)) with (mm n P P i i). rewrite Pid by auto. unfold eye. ring. }
  assert (Tr : sum n (fun i => Q i i) = 0).
  { unfold Q. rewrite sum_minus.
    assert (T : sum n (fun i => P i i) = sum n (fun i => eye i i)); [|lra].
    unfold P, mm at 1. rewrite sum_swap. apply sum_ext. intros j Hj.
    rewrite <- (pinv_left n A H j j Hj Hj). apply sum_ext. intros. ring. }
  assert (Z : forall i, (i < n)%nat -> sum n (fun j => Q i j * Q i j) = 0).
  { apply (sum_nonneg_zero n (fun i => sum n (fun j => Q i j * Q i j))).
    - intros. apply sum_nonneg. intros. apply Rle_0_sqr.
    - rewrite <- Tr. apply sum_ext. auto. }
  intros i j Hi Hj.
  assert (Q i j = 0) by (apply (sum_square_zero n (Q i)); auto). unfold Q in H0. lra.
Qed.

Definition ref_solve (n : nat) (A B : Mat) : Mat := mm n (pinv n A) B.
Lemma ref_solve_ok : forall n o A B, nonsing n A -> meq n o (mm n A (ref_solve n A B)) B.
Proof.
  intros n o A B H i j Hi Hj. unfold ref_solve. rewrite <- mm_assoc.
  transitivity (mm n eye B i j); [|now apply (mm_eye_l n o)].
  apply (mm_ext n n o); auto; [now apply pinv_right|apply meq_refl].
Qed.
Definition ref_la : linalg := {|
  la_solve := ref_solve;
  la_chol := fun n A => cholesky A;
  la_tri := fun n L B => fun i j => fsub L (fun k => B k j) n i;
  la_inv := pinv;
  la_cg := fun n o matvec B precond => ref_solve n (fun i j => matvec (fun r _ => delta r j) i O) B
|}.
Lemma nonsing_ext : forall n A B, meq n n A B -> nonsing n A -> nonsing n B.
Proof.
  intros n A B E H v Hv. apply H. intros i Hi. rewrite <- (Hv i Hi). apply (mv_ext n n); auto. intros ? ?. reflexivity.
Qed.
Lemma ref_la_ok : linalg_ok ref_la.
Proof.
  constructor; simpl.
  - apply ref_solve_ok.
  - intros. now apply cholesky_spec.
  - intros n o L B H1 H2 i j Hi Hj. now apply (fsub_spec n L (fun k => B k j)).
  - intros. now apply pinv_right.
  - intros n o mvf B pc A P H1 H2 H3 H4 H5 H6 i j Hi Hj.
    assert (E : meq n n (fun i j => mvf (fun r _ => delta r j) i O) A).
    { intros a b Ha Hb. rewrite (H5 (fun r _ => delta r b) a O Ha) by lia. unfold mm. now apply sum_delta_r'. }
    transitivity (mm n (fun i j => mvf (fun r _ => delta r j) i O) (ref_solve n (fun i j => mvf (fun r _ => delta r j) i O) B) i j).
    + apply (mm_ext n n o); auto; [now apply meq_sym|apply meq_refl].
    + apply (ref_solve_ok n o); auto. apply (nonsing_ext n A); [now apply meq_sym|now apply pd_nonsing].
Qed.

(** ** Cholesky and triangular solves *)
Lemma chol_lower : forall n A L, is_chol n A L -> lower n L.
Proof. intros n A L [H _]. exact H. Qed.
Lemma chol_diag_nz : forall n A L, is_chol n A L -> forall i, (i < n)%nat -> L i i <> 0.
Proof. intros n A L [_ [H _]] i Hi. apply Rgt_not_eq. now apply H. Qed.
(** G = L^-1 K, B = A^-1 K2 : G^T (L^-1 K2) = K^T B *)
Lemma chol_gram : forall n o p A L G K G2 K2 B, is_chol n A L ->
  meq n o (mm n L G) K -> meq n p (mm n L G2) K2 -> meq n p (mm n A B) K2 ->
  meq o p (mm n (tr G) G2) (mm n (tr K) B).
Proof.
  intros n o p A L G K G2 K2 B HL HG HG2 HB i j Hi Hj.
  assert (E : veq n (fun k => G2 k j) (mv n (tr L) (fun k => B k j))).
  { apply (tri_unique n L); [apply (chol_lower n A L HL)|apply (chol_diag_nz n A L HL)|].
    intros l Hl. rewrite <- (mm_col n L G2). rewrite HG2 by auto. rewrite <- (HB l j) by auto.
    rewrite mm_col, <- mv_mm. apply (mv_ext n n); auto; [|intros ? ?; reflexivity].
    destruct HL as [_ [_ HL]]. now apply meq_sym. }
  change (mm n (tr G) G2 i j) with (dot n (fun k => G k i) (fun k => G2 k j)).
  rewrite (dot_ext n _ _ (fun k => G k i) (mv n (tr L) (fun k => B k j))); [|intros ? ?; reflexivity|exact E].
  rewrite dot_mv_tr. unfold dot. unfold mm at 1. apply sum_ext. intros l Hl. f_equal.
  change (tr K i l) with (K l i). rewrite <- (HG l i) by auto. reflexivity.
Qed.

(** ** minimum principle: b = A^-1 k minimises w^T A w - 2 w^T k *)
Lemma qf_min : forall n A b k w, sym n A -> psd n A -> veq n (mv n A b) k ->
  qf n A b - 2 * dot n b k <= qf n A w - 2 * dot n w k.
Proof.
  intros n A b k w Hs Hp Hb.
  assert (D : qf n A (fun i => w i + - 1 * b i) = qf n A w - 2 * bf n A w b + qf n A b).
  { rewrite qf_plus, qf_scal, bf_scal_r by auto. ring. }
  assert (bf n A w b = dot n w k).
  { rewrite bf_dot. apply dot_ext; auto. intros ? ?; reflexivity. }
  assert (qf n A b = dot n b k).
  { rewrite qf_dot. apply dot_ext; auto. intros ? ?; reflexivity. }
  specialize (Hp (fun i => w i + - 1 * b i)). lra.
Qed.
Lemma qf_at_min : forall n A b k, veq n (mv n A b) k -> qf n A b = dot n b k.
Proof. intros n A b k H. rewrite qf_dot. apply dot_ext; auto. intros ? ?; reflexivity. Qed.
