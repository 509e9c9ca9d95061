(** Index arithmetic, dynamic_update_slice and fori_loop facts; entries of the
    kernelizer loops. *)
From Coq Require Import Reals Lra Lia Arith List Bool.
From Verif Require Import Base.Sums Base.Mat Model.Arrays Model.Kernelizers.
Open Scope R_scope.

Lemma blk_div : forall s h f, (f < h)%nat -> ((s * h + f) / h)%nat = s.
Proof. intros. rewrite Nat.div_add_l by lia. rewrite Nat.div_small by lia. lia. Qed.
Lemma blk_mod : forall s h f, (f < h)%nat -> ((s * h + f) mod h)%nat = f.
Proof.
  intros. rewrite Nat.add_comm, Nat.mod_add by lia. now apply Nat.mod_small.
Qed.
Lemma blk_lt : forall n s h f, (s < n)%nat -> (f < h)%nat -> (s * h + f < n * h)%nat.
Proof. intros. nia. Qed.
Lemma blk_eq : forall n h i, (i < n * h)%nat ->
  exists s f, (s < n)%nat /\ (f < h)%nat /\ i = (s * h + f)%nat.
Proof.
  intros n h i Hi. assert (h <> 0)%nat by lia.
  exists (i / h)%nat, (i mod h)%nat. repeat split.
  - apply Nat.div_lt_upper_bound; lia.
  - now apply Nat.mod_upper_bound.
  - rewrite Nat.mul_comm. now apply Nat.div_mod.
Qed.
Lemma blk_le : forall n s h, (s < n)%nat -> (s * h + h <= n * h)%nat.
Proof. intros. nia. Qed.

Lemma dus_in : forall N M h w A U r0 c0 i j,
  (r0 + h <= N)%nat -> (c0 + w <= M)%nat -> (i < h)%nat -> (j < w)%nat ->
  dus N M h w A U r0 c0 (r0 + i)%nat (c0 + j)%nat = U i j.
Proof.
  intros. unfold dus. rewrite !Nat.min_l by lia.
  rewrite !(proj2 (Nat.leb_le _ _)), !(proj2 (Nat.ltb_lt _ _)) by lia. simpl.
  f_equal; lia.
Qed.
Lemma dus_out_row : forall N M h w A U r0 c0 i j,
  (r0 + h <= N)%nat -> (i < r0 \/ r0 + h <= i)%nat ->
  dus N M h w A U r0 c0 i j = A i j.
Proof.
  intros N M h w A U r0 c0 i j H1 H2. unfold dus. rewrite (Nat.min_l r0) by lia.
  destruct (Nat.leb_spec r0 i), (Nat.ltb_spec i (r0 + h)); simpl; auto; lia.
Qed.
Lemma dus_out_col : forall N M h w A U r0 c0 i j,
  (c0 + w <= M)%nat -> (j < c0 \/ c0 + w <= j)%nat ->
  dus N M h w A U r0 c0 i j = A i j.
Proof.
  intros N M h w A U r0 c0 i j H1 H2. unfold dus. rewrite (Nat.min_l c0) by lia.
  destruct (Nat.leb_spec c0 j), (Nat.ltb_spec j (c0 + w)); simpl; auto; try lia;
  rewrite ?andb_false_r; auto.
Qed.
Lemma dus1_in : forall N h A U r0 i,
  (r0 + h <= N)%nat -> (i < h)%nat -> dus1 N h A U r0 (r0 + i)%nat = U i.
Proof.
  intros. unfold dus1. rewrite Nat.min_l by lia.
  rewrite (proj2 (Nat.leb_le _ _)), (proj2 (Nat.ltb_lt _ _)) by lia. simpl. f_equal; lia.
Qed.
Lemma dus1_out : forall N h A U r0 i,
  (r0 + h <= N)%nat -> (i < r0 \/ r0 + h <= i)%nat -> dus1 N h A U r0 i = A i.
Proof.
  intros N h A U r0 i H1 H2. unfold dus1. rewrite Nat.min_l by lia.
  destruct (Nat.leb_spec r0 i), (Nat.ltb_spec i (r0 + h)); simpl; auto; lia.
Qed.

(** fori invariants *)
Lemma fori_inv : forall {A} (P : nat -> A -> Prop) n body init,
  P O init -> (forall k a, (k < n)%nat -> P k a -> P (S k) (body k a)) -> P n (fori n body init).
Proof.
  intros A P n body init H0 HS.
  assert (G : forall k, (k <= n)%nat -> P k (fori k body init)).
  { induction k; intros; simpl; auto. apply HS; [lia|]. apply IHk; lia. }
  apply G; lia.
Qed.

Lemma fori_ext : forall {A} n (b1 b2 : nat -> A -> A) init,
  (forall k a, (k < n)%nat -> b1 k a = b2 k a) -> fori n b1 init = fori n b2 init.
Proof.
  induction n; intros; simpl; auto. rewrite (IHn b1 b2) by auto. auto.
Qed.

(** writing stripe i of height h at row i*h *)
Lemma fori_stripes : forall n m h (U : nat -> Mat) s j t,
  (s < n)%nat -> (j < h)%nat -> (t < m)%nat ->
  fori n (fun i gram => dus (n * h) m h m gram (U i) (i * h) 0) (fun _ _ => 0) (s * h + j)%nat t
  = U s j t.
Proof.
  intros n m h U s j t Hs Hj Ht.
  pose (P := fun k (g : Mat) => forall s j t, (s < k)%nat -> (j < h)%nat -> (t < m)%nat ->
                    g (s * h + j)%nat t = U s j t).
  apply (fori_inv P); auto.
  - intros ? ? ? H; lia.
  - clear s j t Hs Hj Ht. intros k g Hk IH s j t Hs Hj Ht.
    destruct (Nat.eq_dec s k) as [->|E].
    + rewrite <- (Nat.add_0_l t) at 1. rewrite dus_in; auto; try lia. now apply blk_le.
    + rewrite dus_out_row; [apply IH; auto; lia| now apply blk_le|].
      left. assert (s < k)%nat by lia. nia.
Qed.

Lemma grad0jac_entry : forall n m nf jv g0 X1 X2 J s j t,
  (s < n)%nat -> (j < jv)%nat -> (t < m)%nat ->
  grad0jac_kernelize n m nf jv g0 X1 X2 J (s * jv + j)%nat t
  = sum nf (fun f => g0 (X1 s) (X2 t) f * J s f j).
Proof.
  intros. unfold grad0jac_kernelize.
  apply (fori_stripes n m jv (fun i j k => sum nf (fun f => g0 (X1 i) (X2 k) f * J i f j))); auto.
Qed.

Lemma grad1jac_entry : forall n m nf jv g1 X1 X2 J s t v,
  (s < n)%nat -> (t < m)%nat -> (v < jv)%nat ->
  grad1jac_kernelize n m nf jv g1 X1 X2 J s (t * jv + v)%nat
  = sum nf (fun f => g1 (X1 s) (X2 t) f * J t f v).
Proof.
  intros n m nf jv g1 X1 X2 J s t v Hs Ht Hv. unfold grad1jac_kernelize.
  pose (U := fun t s v => sum nf (fun f => g1 (X1 s) (X2 t) f * J t f v)).
  pose (P := fun k (g : Mat) => forall s t v, (s < n)%nat -> (t < k)%nat -> (v < jv)%nat ->
                    g s (t * jv + v)%nat = U t s v).
  apply (fori_inv P); auto.
  - intros ? ? ? ? H; lia.
  - clear s t v Hs Ht Hv. intros k g Hk IH s t v Hs Ht Hv.
    destruct (Nat.eq_dec t k) as [->|E].
    + rewrite <- (Nat.add_0_l s) at 1. rewrite dus_in; auto; try lia. now apply blk_le.
    + rewrite dus_out_col; [apply IH; auto; lia| now apply blk_le|].
      left. assert (t < k)%nat by lia. nia.
Qed.

(** doubly nested stripes *)
Lemma fori_blocks : forall n m h w (U : nat -> nat -> Mat) s j t v,
  (s < n)%nat -> (j < h)%nat -> (t < m)%nat -> (v < w)%nat ->
  fori n (fun i gram => fori m (fun k gram =>
       dus (n * h) (m * w) h w gram (U i k) (i * h) (k * w)) gram)
    (fun _ _ => 0) (s * h + j)%nat (t * w + v)%nat = U s t j v.
Proof.
  intros n m h w U s j t v Hs Hj Ht Hv.
  pose (P := fun k (g : Mat) => forall s j t v, (s < k)%nat -> (j < h)%nat -> (t < m)%nat ->
        (v < w)%nat -> g (s * h + j)%nat (t * w + v)%nat = U s t j v).
  apply (fori_inv P); auto.
  - intros ? ? ? ? H; lia.
  - clear s j t v Hs Hj Ht Hv. intros i g Hi IH s j t v Hs Hj Ht Hv.
    pose (Q := fun k (g' : Mat) =>
      (forall s j t v, (s < i)%nat -> (j < h)%nat -> (t < m)%nat -> (v < w)%nat ->
          g' (s * h + j)%nat (t * w + v)%nat = U s t j v) /\
      (forall j t v, (j < h)%nat -> (t < k)%nat -> (v < w)%nat ->
          g' (i * h + j)%nat (t * w + v)%nat = U i t j v)).
    assert (QQ : Q m (fori m (fun k gram =>
         dus (n * h) (m * w) h w gram (U i k) (i * h) (k * w)) g)).
    { apply (fori_inv Q).
      - split; [exact IH|intros; lia].
      - intros k g' Hk [A B]. split; intros.
        + rewrite dus_out_row; [apply A; auto|now apply blk_le|left; nia].
        + destruct (Nat.eq_dec t0 k) as [->|E].
          * rewrite dus_in; auto; now apply blk_le.
          * rewrite dus_out_col; [apply B; auto; lia|now apply blk_le|].
            left. assert (t0 < k)%nat by lia. nia. }
    destruct QQ as [A B]. destruct (Nat.eq_dec s i) as [->|E].
    + apply B; auto.
    + apply A; auto; lia.
Qed.

Lemma grad01jac_entry : forall n m nf j1v j2v h X1 X2 J1 J2 s j t v,
  (s < n)%nat -> (j < j1v)%nat -> (t < m)%nat -> (v < j2v)%nat ->
  grad01jac_kernelize n m nf j1v j2v h X1 X2 J1 J2 (s * j1v + j)%nat (t * j2v + v)%nat
  = sum nf (fun a => sum nf (fun b => J1 s a j * h (X1 s) (X2 t) a b * J2 t b v)).
Proof.
  intros. unfold grad01jac_kernelize.
  apply (fori_blocks n m j1v j2v (fun i k u v =>
    sum nf (fun a => sum nf (fun b => J1 i a u * h (X1 i) (X2 k) a b * J2 k b v)))); auto.
Qed.

Lemma grad0jaccoef_traced_entry : forall n nf g0 X1 X2 JC t,
  grad0jaccoef_traced n nf g0 X1 X2 JC t
  = sum n (fun i => sum nf (fun f => g0 (X1 i) (X2 t) f * JC i f)).
Proof.
  intros. unfold grad0jaccoef_traced.
  induction n; simpl; auto. now rewrite IHn.
Qed.

Lemma grad0jaccoef_untraced_entry : forall n nf g0 X1 X2 JC s t, (s < n)%nat ->
  grad0jaccoef_untraced n nf g0 X1 X2 JC s t
  = sum nf (fun f => g0 (X1 s) (X2 t) f * JC s f).
Proof.
  intros n nf g0 X1 X2 JC s t Hs. unfold grad0jaccoef_untraced.
  induction n; [lia|]. simpl.
  destruct (Nat.eqb_spec s n) as [->|E]; auto. apply IHn; lia.
Qed.

Lemma grad01jaccoef_untraced_entry : forall n m nf nv h X1 X2 JC J s t u,
  (s < n)%nat -> (t < m)%nat -> (u < nv)%nat ->
  grad01jaccoef_untraced n m nf nv h X1 X2 JC J s (t * nv + u)%nat
  = sum nf (fun f => sum nf (fun e => JC s f * h (X1 s) (X2 t) f e * J t e u)).
Proof.
  intros n m nf nv h X1 X2 JC J s t u Hs Ht Hu. unfold grad01jaccoef_untraced.
  pose proof (fori_blocks n m 1 nv (fun i k _ u =>
    sum nf (fun f => sum nf (fun e => JC i f * h (X1 i) (X2 k) f e * J k e u)))
    s 0 t u Hs (Nat.lt_0_1) Ht Hu) as G.
  rewrite (Nat.mul_1_r s), Nat.add_0_r in G. rewrite <- G.
  apply (f_equal (fun M : Mat => M s (t * nv + u)%nat)).
  apply fori_ext. intros k a Hk. apply fori_ext. intros k' a' Hk'.
  now rewrite !Nat.mul_1_r.
Qed.

Lemma grad01jaccoef_traced_entry : forall n m nf nv h X1 X2 JC J t u,
  (t < m)%nat -> (u < nv)%nat ->
  grad01jaccoef_traced n m nf nv h X1 X2 JC J (t * nv + u)%nat
  = sum n (fun i => sum nf (fun f => sum nf (fun e => JC i f * h (X1 i) (X2 t) f e * J t e u))).
Proof.
  intros n m nf nv h X1 X2 JC J t u Ht Hu. unfold grad01jaccoef_traced.
  pose (W := fun i t u => sum nf (fun f => sum nf (fun e => JC i f * h (X1 i) (X2 t) f e * J t e u))).
  pose (P := fun k (g : Vec) => forall t u, (t < m)%nat -> (u < nv)%nat ->
        g (t * nv + u)%nat = sum k (fun i => W i t u)).
  apply (fori_inv P); auto.
  - intros ? ? ? ?; reflexivity.
  - clear t u Ht Hu. intros i g Hi IH t u Ht Hu.
    pose (Q := fun k (g' : Vec) => forall t u, (t < m)%nat -> (u < nv)%nat ->
      g' (t * nv + u)%nat = sum i (fun i => W i t u) + (if Nat.ltb t k then W i t u else 0)).
    assert (QQ : Q m (fori m (fun (j : nat) (gram : nat -> R) =>
      dus1 (m * nv) nv gram
        (fun u0 => dslice1 (m * nv) nv gram (j * nv) u0
           + sum nf (fun f => sum nf (fun e => JC i f * h (X1 i) (X2 j) f e * J j e u0)))
        (j * nv)) g)).
    { apply (fori_inv Q).
      - intros t' u' Ht' Hu'. rewrite IH by auto. simpl. ring.
      - intros k g' Hk B t' u' Ht' Hu'.
        destruct (Nat.eq_dec t' k) as [->|E].
        + rewrite dus1_in; auto; [|now apply blk_le].
          unfold dslice1. rewrite Nat.min_l by (pose proof (blk_le m k nv Hk); lia).
          rewrite B by auto. rewrite Nat.ltb_irrefl.
          rewrite (proj2 (Nat.ltb_lt k (S k))) by lia. fold (W i k u'). ring.
        + rewrite dus1_out; [|now apply blk_le|].
          * rewrite B by auto. destruct (Nat.ltb_spec t' k), (Nat.ltb_spec t' (S k)); auto; lia.
          * destruct (lt_dec t' k); [left; nia|right].
            assert (S k <= t')%nat by lia. nia. }
    specialize (QQ t u Ht Hu). rewrite (proj2 (Nat.ltb_lt t m)) in QQ by auto. exact QQ.
Qed.
