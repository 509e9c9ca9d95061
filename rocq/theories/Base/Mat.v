(** Vectors and matrices over R as functions of indices, with explicit sizes. *)
From Coq Require Import Reals Lra Lia Arith.
From Verif Require Import Base.Sums.
Open Scope R_scope.

Definition Vec := nat -> R.
Definition Mat := nat -> nat -> R.
Definition Ten := nat -> nat -> nat -> R.

Definition dot (n : nat) (u v : Vec) : R := sum n (fun i => u i * v i).
(** [mv m A v]: matrix (with m columns) times vector *)
Definition mv (m : nat) (A : Mat) (v : Vec) : Vec := fun i => sum m (fun j => A i j * v j).
(** [mm m A B]: product, m = inner size *)
Definition mm (m : nat) (A B : Mat) : Mat := fun i j => sum m (fun k => A i k * B k j).
Definition tr (A : Mat) : Mat := fun i j => A j i.
Definition madd (A B : Mat) : Mat := fun i j => A i j + B i j.
Definition msub (A B : Mat) : Mat := fun i j => A i j - B i j.
Definition mscal (c : R) (A : Mat) : Mat := fun i j => c * A i j.
Definition eye : Mat := delta.
Definition add_diag (s : R) (A : Mat) : Mat := fun i j => A i j + s * delta i j.

Definition meq (n m : nat) (A B : Mat) : Prop :=
  forall i j, (i < n)%nat -> (j < m)%nat -> A i j = B i j.
Definition veq (n : nat) (u v : Vec) : Prop := forall i, (i < n)%nat -> u i = v i.

Definition qf (n : nat) (A : Mat) (v : Vec) : R :=
  sum n (fun i => sum n (fun j => v i * A i j * v j)).
Definition sym (n : nat) (A : Mat) : Prop :=
  forall i j, (i < n)%nat -> (j < n)%nat -> A i j = A j i.
Definition nonzero (n : nat) (v : Vec) : Prop := exists i, (i < n)%nat /\ v i <> 0.
Definition psd (n : nat) (A : Mat) : Prop := forall v, 0 <= qf n A v.
Definition pd (n : nat) (A : Mat) : Prop := forall v, nonzero n v -> 0 < qf n A v.

Definition upd (v : Vec) (i : nat) (t : R) : Vec := fun j => if Nat.eqb j i then t else v j.

Lemma upd_same : forall v i t, upd v i t i = t.
Proof. intros. unfold upd. now rewrite Nat.eqb_refl. Qed.
Lemma upd_other : forall v i t j, j <> i -> upd v i t j = v j.
Proof. intros v i t j H. unfold upd. now rewrite (proj2 (Nat.eqb_neq j i) H). Qed.
Lemma upd_id : forall v i j, upd v i (v i) j = v j.
Proof. intros. unfold upd. destruct (Nat.eqb_spec j i); congruence. Qed.

Lemma meq_refl : forall n m A, meq n m A A.
Proof. intros n m A i j; reflexivity. Qed.
Lemma meq_sym : forall n m A B, meq n m A B -> meq n m B A.
Proof. intros n m A B H i j Hi Hj. symmetry; auto. Qed.
Lemma meq_trans : forall n m A B C, meq n m A B -> meq n m B C -> meq n m A C.
Proof. intros n m A B C H1 H2 i j Hi Hj. rewrite H1; auto. Qed.

Lemma dot_comm : forall n u v, dot n u v = dot n v u.
Proof. intros. apply sum_ext; intros; ring. Qed.

Lemma dot_ext : forall n u v u' v', veq n u u' -> veq n v v' -> dot n u v = dot n u' v'.
Proof. intros n u v u' v' H1 H2. apply sum_ext; intros. rewrite H1, H2; auto. Qed.

Lemma mv_ext : forall n m A B u v, meq n m A B -> veq m u v -> veq n (mv m A u) (mv m B v).
Proof. intros n m A B u v H1 H2 i Hi. apply sum_ext; intros. rewrite H1, H2; auto. Qed.

Lemma mm_assoc : forall m k A B C i j,
  mm k (mm m A B) C i j = mm m A (mm k B C) i j.
Proof.
  intros. unfold mm.
  rewrite (sum_ext k _ (fun l => sum m (fun p => A i p * B p l * C l j)))
    by (intros; rewrite <- sum_scal_r; reflexivity).
  rewrite sum_swap. apply sum_ext. intros p Hp.
  rewrite <- sum_scal_l. apply sum_ext. intros; ring.
Qed.

Lemma mv_mm : forall m k A B v i, mv k (mm m A B) v i = mv m A (mv k B v) i.
Proof.
  intros. unfold mm, mv.
  rewrite (sum_ext k _ (fun l => sum m (fun p => A i p * B p l * v l)))
    by (intros; rewrite <- sum_scal_r; reflexivity).
  rewrite sum_swap. apply sum_ext. intros p Hp.
  rewrite <- sum_scal_l. apply sum_ext. intros; ring.
Qed.

Lemma dot_mv_tr : forall n m A u v, dot n u (mv m A v) = dot m (mv n (tr A) u) v.
Proof.
  intros. unfold dot, mv, tr.
  rewrite (sum_ext n _ (fun i => sum m (fun j => u i * A i j * v j))).
  - rewrite sum_swap. apply sum_ext. intros j Hj. rewrite <- sum_scal_r.
    apply sum_ext; intros; ring.
  - intros. rewrite <- sum_scal_l. apply sum_ext; intros; ring.
Qed.

Lemma qf_dot : forall n A v, qf n A v = dot n v (mv n A v).
Proof.
  intros. unfold qf, dot, mv. apply sum_ext; intros.
  rewrite <- sum_scal_l. apply sum_ext; intros; ring.
Qed.

Lemma qf_ext : forall n A B u v, meq n n A B -> veq n u v -> qf n A u = qf n B v.
Proof.
  intros n A B u v H1 H2. unfold qf. apply sum_ext; intros. apply sum_ext; intros.
  rewrite H1, (H2 i), (H2 i0); auto.
Qed.

Lemma qf_madd : forall n A B v, qf n (madd A B) v = qf n A v + qf n B v.
Proof.
  intros. unfold qf, madd. rewrite <- sum_plus. apply sum_ext; intros.
  rewrite <- sum_plus. apply sum_ext; intros. ring.
Qed.

Lemma qf_msub : forall n A B v, qf n (msub A B) v = qf n A v - qf n B v.
Proof.
  intros. unfold qf, msub. rewrite <- sum_minus. apply sum_ext; intros.
  rewrite <- sum_minus. apply sum_ext; intros. ring.
Qed.

Lemma qf_mscal : forall n c A v, qf n (mscal c A) v = c * qf n A v.
Proof.
  intros. unfold qf, mscal. rewrite <- sum_scal_l. apply sum_ext; intros.
  rewrite <- sum_scal_l. apply sum_ext; intros. ring.
Qed.

Lemma qf_eye : forall n v, qf n eye v = dot n v v.
Proof.
  intros. unfold qf, eye, dot. apply sum_ext; intros i Hi.
  rewrite (sum_ext n _ (fun j => delta i j * (v i * v j))) by (intros; ring).
  now rewrite sum_delta_l.
Qed.

Lemma add_diag_madd : forall s A i j, add_diag s A i j = madd A (mscal s eye) i j.
Proof. reflexivity. Qed.

Lemma qf_add_diag : forall n s A v, qf n (add_diag s A) v = qf n A v + s * dot n v v.
Proof.
  intros. rewrite <- qf_eye, <- qf_mscal, <- qf_madd. apply qf_ext; intros ? ?; reflexivity.
Qed.

(** a Gram matrix F F^T with F of k columns *)
Definition gram (k : nat) (F : Mat) : Mat := fun i j => sum k (fun l => F i l * F j l).

Lemma qf_gram : forall n k F v,
  qf n (gram k F) v = sum k (fun l => (sum n (fun i => v i * F i l)) * (sum n (fun i => v i * F i l))).
Proof.
  intros. unfold qf, gram.
  rewrite (sum_ext n _ (fun i => sum k (fun l => sum n (fun j => (v i * F i l) * (v j * F j l))))).
  - rewrite sum_swap. apply sum_ext; intros. now rewrite sum_mult.
  - intros i Hi. rewrite sum_swap. apply sum_ext; intros j Hj.
    rewrite <- sum_scal_l, <- sum_scal_r. apply sum_ext; intros; ring.
Qed.

Lemma dot_nonneg : forall n v, 0 <= dot n v v.
Proof. intros. apply sum_nonneg. intros; apply Rle_0_sqr. Qed.

Lemma dot_zero : forall n v, dot n v v = 0 -> forall i, (i < n)%nat -> v i = 0.
Proof. intros n v H. now apply sum_square_zero. Qed.

Lemma dot_pos : forall n v, nonzero n v -> 0 < dot n v v.
Proof.
  intros n v [i [Hi Hv]]. apply sum_pos.
  - intros; apply Rle_0_sqr.
  - exists i; split; auto. nra.
Qed.

Lemma nonzero_dec : forall n v, nonzero n v \/ (forall i, (i < n)%nat -> v i = 0).
Proof.
  induction n; intro v; [right; intros; lia|].
  destruct (IHn v) as [[i [Hi Hv]]|H].
  - left; exists i; split; auto.
  - destruct (Req_dec (v n) 0) as [E|E].
    + right. intros i Hi. destruct (Nat.eq_dec i n) as [->|]; auto. apply H; lia.
    + left; exists n; split; auto.
Qed.

(** bilinear expansions *)
Definition bf (n : nat) (A : Mat) (u v : Vec) : R :=
  sum n (fun i => sum n (fun j => u i * A i j * v j)).

Lemma bf_sym : forall n A u v, sym n A -> bf n A u v = bf n A v u.
Proof.
  intros n A u v H. unfold bf. rewrite sum_swap. apply sum_ext; intros j Hj.
  apply sum_ext; intros i Hi. rewrite H by auto. ring.
Qed.

Lemma qf_bf : forall n A v, qf n A v = bf n A v v.
Proof. reflexivity. Qed.

Lemma bf_dot : forall n A u v, bf n A u v = dot n u (mv n A v).
Proof.
  intros. unfold bf, dot, mv. apply sum_ext; intros.
  rewrite <- sum_scal_l. apply sum_ext; intros; ring.
Qed.

Lemma bf_plus_l : forall n A u u' v, bf n A (fun i => u i + u' i) v = bf n A u v + bf n A u' v.
Proof.
  intros. unfold bf. rewrite <- sum_plus. apply sum_ext; intros.
  rewrite <- sum_plus. apply sum_ext; intros; ring.
Qed.

Lemma bf_plus_r : forall n A u v v', bf n A u (fun i => v i + v' i) = bf n A u v + bf n A u v'.
Proof.
  intros. unfold bf. rewrite <- sum_plus. apply sum_ext; intros.
  rewrite <- sum_plus. apply sum_ext; intros; ring.
Qed.

Lemma bf_scal_l : forall n A c u v, bf n A (fun i => c * u i) v = c * bf n A u v.
Proof.
  intros. unfold bf. rewrite <- sum_scal_l. apply sum_ext; intros.
  rewrite <- sum_scal_l. apply sum_ext; intros; ring.
Qed.

Lemma bf_scal_r : forall n A c u v, bf n A u (fun i => c * v i) = c * bf n A u v.
Proof.
  intros. unfold bf. rewrite <- sum_scal_l. apply sum_ext; intros.
  rewrite <- sum_scal_l. apply sum_ext; intros; ring.
Qed.

Lemma qf_plus : forall n A u v, sym n A ->
  qf n A (fun i => u i + v i) = qf n A u + 2 * bf n A u v + qf n A v.
Proof.
  intros n A u v H. rewrite !qf_bf, bf_plus_l, !bf_plus_r, (bf_sym n A v u H). ring.
Qed.

Lemma qf_scal : forall n A c v, qf n A (fun i => c * v i) = c * c * qf n A v.
Proof. intros. rewrite !qf_bf, bf_scal_l, bf_scal_r. ring. Qed.

Lemma bf_delta_l : forall n A s v, (s < n)%nat -> bf n A (delta s) v = sum n (fun j => A s j * v j).
Proof.
  intros n A s v Hs. unfold bf.
  rewrite (sum_ext n _ (fun i => delta s i * sum n (fun j => A i j * v j))).
  - now rewrite sum_delta_l.
  - intros. rewrite <- sum_scal_l. apply sum_ext; intros; ring.
Qed.

Lemma qf_delta : forall n A s, (s < n)%nat -> qf n A (delta s) = A s s.
Proof.
  intros n A s Hs. rewrite qf_bf, bf_delta_l by auto.
  rewrite (sum_ext n _ (fun j => delta s j * A s j)) by (intros; ring).
  now rewrite sum_delta_l.
Qed.
