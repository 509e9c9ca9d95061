(** Positive (semi)definite matrices: Schur complements, factorisation,
    Cholesky, triangular and general solves. *)
From Coq Require Import Reals Lra Lia Arith.
From Verif Require Import Base.Sums Base.Mat.
Open Scope R_scope.

Lemma psd_ext : forall n A B, meq n n A B -> psd n A -> psd n B.
Proof.
  intros n A B H HA v. rewrite <- (qf_ext n A B v v H); auto. intros ? ?; reflexivity.
Qed.

Lemma pd_ext : forall n A B, meq n n A B -> pd n A -> pd n B.
Proof.
  intros n A B H HA v Hv. rewrite <- (qf_ext n A B v v H); auto. intros ? ?; reflexivity.
Qed.

Lemma pd_psd : forall n A, pd n A -> psd n A.
Proof.
  intros n A H v. destruct (nonzero_dec n v) as [Hv|Hv].
  - left; auto.
  - right. symmetry. unfold qf. apply sum_zero_ext; intros i Hi.
    apply sum_zero_ext; intros j Hj. rewrite (Hv i Hi). ring.
Qed.

Lemma psd_madd : forall n A B, psd n A -> psd n B -> psd n (madd A B).
Proof. intros n A B HA HB v. rewrite qf_madd. specialize (HA v); specialize (HB v); lra. Qed.

Lemma psd_mscal : forall n c A, 0 <= c -> psd n A -> psd n (mscal c A).
Proof. intros n c A Hc HA v. rewrite qf_mscal. specialize (HA v). nra. Qed.

Lemma psd_gram : forall n k F, psd n (gram k F).
Proof. intros n k F v. rewrite qf_gram. apply sum_nonneg. intros; apply Rle_0_sqr. Qed.

Lemma sym_gram : forall n k F, sym n (gram k F).
Proof. intros n k F i j Hi Hj. unfold gram. apply sum_ext; intros; ring. Qed.

Lemma pd_add_diag : forall n s A, psd n A -> 0 < s -> pd n (add_diag s A).
Proof.
  intros n s A HA Hs v Hv. rewrite qf_add_diag.
  specialize (HA v). pose proof (dot_pos n v Hv). nra.
Qed.

Lemma psd_add_diag : forall n s A, psd n A -> 0 <= s -> psd n (add_diag s A).
Proof.
  intros n s A HA Hs v. rewrite qf_add_diag.
  specialize (HA v). pose proof (dot_nonneg n v). nra.
Qed.

Lemma sym_add_diag : forall n s A, sym n A -> sym n (add_diag s A).
Proof. intros n s A H i j Hi Hj. unfold add_diag. rewrite H, delta_sym; auto. Qed.

Lemma pd_madd : forall n A B, pd n A -> psd n B -> pd n (madd A B).
Proof.
  intros n A B HA HB v Hv. rewrite qf_madd. specialize (HA v Hv). specialize (HB v). lra.
Qed.

Lemma psd_diag : forall n A, psd n A -> forall s, (s < n)%nat -> 0 <= A s s.
Proof. intros n A H s Hs. rewrite <- (qf_delta n A s Hs). apply H. Qed.

Lemma nonzero_delta : forall n s, (s < n)%nat -> nonzero n (delta s).
Proof. intros n s H. exists s; split; auto. rewrite delta_same. lra. Qed.

Lemma pd_diag : forall n A, pd n A -> forall s, (s < n)%nat -> 0 < A s s.
Proof.
  intros n A H s Hs. rewrite <- (qf_delta n A s Hs). apply H. now apply nonzero_delta.
Qed.

(** |A_is|^2 <= A_ii A_ss *)
Lemma psd_cs : forall n A u v, sym n A -> psd n A ->
  bf n A u v * bf n A u v <= qf n A u * qf n A v.
Proof.
  intros n A u v Hs H.
  set (a := qf n A u). set (b := bf n A u v). set (c := qf n A v).
  assert (Q : forall t, 0 <= a * t * t + 2 * b * t + c).
  { intro t. pose proof (H (fun i => t * u i + v i)) as Q.
    rewrite qf_plus in Q by auto. rewrite qf_scal, bf_scal_l in Q. unfold a, b, c. lra. }
  assert (0 <= a) by apply H. assert (0 <= c) by apply H.
  destruct (Req_dec a 0) as [E|E].
  - assert (b = 0).
    { rewrite E in Q. destruct (Req_dec b 0) as [|Hb]; auto.
      specialize (Q (- (c + 1) / (2 * b))).
      replace (0 * (- (c + 1) / (2 * b)) * (- (c + 1) / (2 * b)) + 2 * b * (- (c + 1) / (2 * b)) + c)
        with (-1) in Q by (field; auto). lra. }
    rewrite H2, E. lra.
  - assert (0 < a) by lra. specialize (Q (- b / a)).
    replace (a * (- b / a) * (- b / a) + 2 * b * (- b / a) + c) with (c - b * b / a) in Q
      by (field; lra).
    assert (b * b / a <= c) by lra.
    apply (Rmult_le_compat_r a) in H3; [|lra].
    replace (b * b / a * a) with (b * b) in H3 by (field; lra). lra.
Qed.

Lemma psd_entry : forall n A i j, sym n A -> psd n A -> (i < n)%nat -> (j < n)%nat ->
  A i j * A i j <= A i i * A j j.
Proof.
  intros n A i j Hs H Hi Hj.
  pose proof (psd_cs n A (delta i) (delta j) Hs H) as Q.
  rewrite !qf_delta in Q by auto. rewrite bf_delta_l in Q by auto.
  rewrite (sum_ext n (fun k => A i k * delta j k) (fun k => delta j k * A i k)) in Q
    by (intros; ring).
  rewrite sum_delta_l in Q by auto. exact Q.
Qed.

Lemma psd_zero_diag : forall n A s i, sym n A -> psd n A -> (s < n)%nat -> (i < n)%nat ->
  A s s = 0 -> A i s = 0.
Proof.
  intros n A s i Hs H Hls Hli E.
  pose proof (psd_entry n A i s Hs H Hli Hls) as Q. rewrite E in Q. nra.
Qed.

(** Schur complement with pivot s, scaled by theta in [0,1] *)
Definition schur (theta : R) (s : nat) (A : Mat) : Mat :=
  fun i j => A i j - theta * (A i s * A j s / A s s).

Lemma schur_psd : forall n A s theta, sym n A -> psd n A -> (s < n)%nat ->
  0 < A s s -> theta <= 1 -> psd n (schur theta s A).
Proof.
  intros n A s theta Hs H Hls Hp Ht v.
  pose proof (psd_cs n A v (delta s) Hs H) as Q. rewrite qf_delta in Q by auto.
  set (b := bf n A v (delta s)) in *.
  assert (E : qf n (schur theta s A) v = qf n A v - theta * (b * b / A s s)).
  { assert (Eb : b = sum n (fun i => v i * A i s)).
    { unfold b. rewrite bf_sym by auto. rewrite bf_delta_l by auto.
      apply sum_ext; intros. rewrite (Hs s i) by auto. ring. }
    replace (b * b) with (sum n (fun i => sum n (fun j => (v i * A i s) * (v j * A j s))))
      by (rewrite Eb, sum_mult; reflexivity).
    unfold qf, schur. unfold Rdiv. rewrite <- sum_scal_r, <- sum_scal_l, <- sum_minus.
    apply sum_ext; intros. rewrite <- sum_scal_r, <- sum_scal_l, <- sum_minus.
    apply sum_ext; intros. ring. }
  rewrite E.
  assert (b * b / A s s <= qf n A v).
  { apply (Rmult_le_reg_r (A s s)); auto. unfold Rdiv. rewrite Rmult_assoc, Rinv_l by lra. lra. }
  assert (0 <= b * b / A s s).
  { unfold Rdiv. apply Rmult_le_pos; [nra|]. left. now apply Rinv_0_lt_compat. }
  nra.
Qed.

Lemma schur_sym : forall n A s theta, sym n A -> sym n (schur theta s A).
Proof. intros n A s theta H i j Hi Hj. unfold schur. rewrite (H i j) by auto. unfold Rdiv. ring. Qed.

Lemma sym_ext : forall n A B, meq n n A B -> sym n A -> sym n B.
Proof. intros n A B H HA i j Hi Hj. rewrite <- !H by auto. auto. Qed.

(** ** Factorisation of PSD matrices *)

(** one elimination column (0 when the pivot is 0) *)
Definition elim_col (A : Mat) (k : nat) : Vec :=
  fun i => if Req_EM_T (A k k) 0 then 0 else A i k / sqrt (A k k).

(** residual after eliminating pivots 0..k-1 *)
Fixpoint resid (A : Mat) (k : nat) : Mat :=
  match k with
  | O => A
  | S k' => let B := resid A k' in fun i j => B i j - elim_col B k' i * elim_col B k' j
  end.

(** the factor: column k *)
Definition cfac (A : Mat) : Mat := fun i k => elim_col (resid A k) k i.

Lemma resid_S : forall A k i j,
  resid A (S k) i j = resid A k i j - cfac A i k * cfac A j k.
Proof. reflexivity. Qed.

Lemma resid_sum : forall A k i j,
  resid A k i j = A i j - sum k (fun l => cfac A i l * cfac A j l).
Proof.
  induction k; intros; [simpl; ring|].
  rewrite resid_S, IHk. simpl. ring.
Qed.

Lemma resid_step_eq : forall n A k i j, sym n A -> psd n A -> (k < n)%nat ->
  (i < n)%nat -> (j < n)%nat -> 0 < A k k ->
  A i j - elim_col A k i * elim_col A k j = schur 1 k A i j.
Proof.
  intros n A k i j Hs H Hk Hi Hj Hp. unfold elim_col, schur.
  destruct (Req_EM_T (A k k) 0); [lra|].
  replace (A i k / sqrt (A k k) * (A j k / sqrt (A k k)))
    with (A i k * A j k / (sqrt (A k k) * sqrt (A k k))).
  - rewrite sqrt_sqrt by lra. ring.
  - field. apply Rgt_not_eq. now apply sqrt_lt_R0.
Qed.

Lemma resid_inv : forall n A, sym n A -> psd n A -> forall k, (k <= n)%nat ->
  sym n (resid A k) /\ psd n (resid A k) /\
  (forall i j, (i < n)%nat -> (j < k)%nat -> resid A k i j = 0).
Proof.
  intros n A Hs H. induction k; intro Hk.
  - simpl. repeat split; auto. intros; lia.
  - destruct IHk as [S1 [P1 Z1]]; [lia|].
    set (B := resid A k) in *.
    pose proof (psd_diag n B P1 k ltac:(lia)) as D.
    assert (Sy : sym n (resid A (S k))).
    { intros i j Hi Hj. rewrite !resid_S. fold B. rewrite (S1 i j) by auto. ring. }
    destruct (Req_dec (B k k) 0) as [E|E].
    + assert (Eq : meq n n B (resid A (S k))).
      { intros i j Hi Hj. rewrite resid_S. fold B. unfold cfac, elim_col.
        fold B. destruct (Req_EM_T (B k k) 0); [ring|contradiction]. }
      repeat split; auto.
      * eapply psd_ext; eauto.
      * intros i j Hi Hj. rewrite <- Eq by (auto; lia).
        destruct (Nat.eq_dec j k) as [->|]; [|apply Z1; lia].
        apply (psd_zero_diag n B k i); auto; lia.
    + assert (Eq : meq n n (schur 1 k B) (resid A (S k))).
      { intros i j Hi Hj. rewrite resid_S. unfold cfac. fold B.
        symmetry. apply (resid_step_eq n); auto; lra. }
      repeat split; auto.
      * eapply psd_ext; [exact Eq|]. apply schur_psd; auto; lra.
      * intros i j Hi Hj. rewrite <- Eq by (auto; lia). unfold schur.
        destruct (Nat.eq_dec j k) as [->|].
        -- field. lra.
        -- assert (B i j = 0) as -> by (apply Z1; lia).
           assert (B j k = 0) as ->.
           { rewrite (S1 j k) by lia. apply Z1; lia. }
           unfold Rdiv. ring.
Qed.

(** every symmetric PSD matrix is F F^T with n columns *)
Theorem psd_factor : forall n A, sym n A -> psd n A ->
  forall i j, (i < n)%nat -> (j < n)%nat -> A i j = gram n (cfac A) i j.
Proof.
  intros n A Hs H i j Hi Hj.
  destruct (resid_inv n A Hs H n (le_n n)) as [_ [_ Z]].
  specialize (Z i j Hi Hj). rewrite resid_sum in Z. unfold gram. lra.
Qed.

(** Schur product theorem *)
Definition hada (A B : Mat) : Mat := fun i j => A i j * B i j.

Theorem psd_hada : forall n A B, psd n A -> sym n B -> psd n B -> psd n (hada A B).
Proof.
  intros n A B HA Hs HB v.
  assert (E : qf n (hada A B) v =
              sum n (fun l => qf n A (fun i => v i * cfac B i l))).
  { unfold qf, hada.
    rewrite (sum_ext n _ (fun i => sum n (fun l => sum n (fun j =>
        v i * cfac B i l * A i j * (v j * cfac B j l))))).
    - rewrite sum_swap. reflexivity.
    - intros i Hi. rewrite sum_swap. apply sum_ext; intros j Hj.
      rewrite (psd_factor n B Hs HB i j Hi Hj). unfold gram.
      rewrite <- sum_scal_l, <- sum_scal_l, <- sum_scal_r. apply sum_ext; intros; ring. }
  rewrite E. apply sum_nonneg. intros; apply HA.
Qed.

Lemma sym_hada : forall n A B, sym n A -> sym n B -> sym n (hada A B).
Proof. intros n A B H1 H2 i j Hi Hj. unfold hada. rewrite H1, H2; auto. Qed.

(** ** Cholesky factorisation of PD matrices *)

(** specification of a (lower) Cholesky factor *)
Definition is_chol (n : nat) (A L : Mat) : Prop :=
  (forall i j, (i < n)%nat -> (j < n)%nat -> (i < j)%nat -> L i j = 0) /\
  (forall i, (i < n)%nat -> 0 < L i i) /\
  meq n n (mm n L (tr L)) A.

(** lower-triangular part of the elimination factor *)
Definition cholesky (A : Mat) : Mat := fun i j => if Nat.ltb i j then 0 else cfac A i j.

Lemma resid_pd_diag : forall n A, sym n A -> pd n A -> forall k, (k < n)%nat ->
  0 < resid A k k k.
Proof.
  intros n A Hs HP k Hk.
  pose proof (pd_psd n A HP) as H.
  destruct (resid_inv n A Hs H k ltac:(lia)) as [S1 [P1 Z1]].
  pose proof (psd_diag n _ P1 k Hk) as D.
  destruct (Rle_lt_or_eq_dec _ _ D) as [|E]; auto. exfalso. symmetry in E.
  (* build a vector v with v k = 1, vanishing beyond k, orthogonal to the first k columns *)
  assert (X : forall m, (m <= k)%nat -> exists v : Vec,
     v k = 1 /\ (forall i, (k < i)%nat -> v i = 0) /\
     (forall i, (i < k - m)%nat -> v i = 0) /\
     (forall l, (k - m <= l < k)%nat -> sum n (fun i => v i * cfac A i l) = 0) ).
  { induction m; intro Hm.
    - exists (delta k). split; [apply delta_same|]. split; [intros; apply delta_diff; lia|].
      split; [intros; apply delta_diff; lia|intros; lia].
    - destruct IHm as [v [V1 [V2 [V3 V4]]]]; [lia|].
      set (q := (k - S m)%nat).
      assert (Rp : 0 < resid A q q q \/ resid A q q q = 0).
      { destruct (resid_inv n A Hs H q ltac:(lia)) as [_ [Pq _]].
        pose proof (psd_diag n _ Pq q ltac:(lia)). lra. }
      assert (LT : forall l, (q < l < k)%nat -> cfac A q l = 0).
      { intros l Hl. unfold cfac, elim_col.
        destruct (Req_EM_T (resid A l l l) 0); auto.
        destruct (resid_inv n A Hs H l ltac:(lia)) as [Sl [_ Zl]].
        rewrite (Sl q l) by lia. rewrite Zl by lia. unfold Rdiv; ring. }
      set (c := sum n (fun i => v i * cfac A i q)).
      set (d := cfac A q q).
      destruct Rp as [Rp|Rz].
      + assert (dp : 0 < d).
        { unfold d, cfac, elim_col. destruct (Req_EM_T (resid A q q q) 0); [lra|].
          unfold Rdiv. apply Rmult_lt_0_compat; auto. apply Rinv_0_lt_compat.
          now apply sqrt_lt_R0. }
        exists (fun i => v i + (- c / d) * delta q i).
        split; [|split; [|split]].
        * rewrite V1, delta_diff by (unfold q; lia). ring.
        * intros i Hi. rewrite V2, delta_diff by (auto; unfold q; lia). ring.
        * intros i Hi. rewrite V3, delta_diff by (unfold q; lia). ring.
        * intros l Hl.
          rewrite (sum_ext n _ (fun i => v i * cfac A i l + (- c / d) * (delta q i * cfac A i l)))
            by (intros; ring).
          rewrite sum_plus, sum_scal_l, sum_delta_l by (unfold q; lia).
          destruct (Nat.eq_dec l q) as [->|].
          -- fold c. fold d. field. lra.
          -- rewrite V4, LT by (unfold q in *; lia). ring.
      + exists v. split; [|split; [|split]]; auto.
        * intros i Hi. apply V3. lia.
        * intros l Hl. destruct (Nat.eq_dec l q) as [->|].
          -- apply sum_zero_ext. intros i Hi. unfold cfac, elim_col.
             destruct (Req_EM_T (resid A q q q) 0); [ring|contradiction].
          -- apply V4. unfold q in *. lia. }
  destruct (X k (le_n k)) as [v [V1 [V2 [V3 V4]]]].
  assert (N : nonzero n v) by (exists k; split; auto; rewrite V1; lra).
  specialize (HP v N).
  assert (Q : qf n A v = qf n (resid A k) v).
  { assert (E2 : meq n n A (madd (resid A k) (gram k (cfac A)))).
    { intros i j Hi Hj. unfold madd, gram. rewrite resid_sum. ring. }
    rewrite (qf_ext n _ _ v v E2) by (intros ? ?; reflexivity).
    rewrite qf_madd, qf_gram.
    rewrite (sum_zero_ext k); [ring|].
    intros l Hl. rewrite V4 by lia. ring. }
  rewrite Q in HP.
  assert (qf n (resid A k) v = 0).
  { unfold qf. apply sum_zero_ext; intros i Hi. apply sum_zero_ext; intros j Hj.
    destruct (lt_eq_lt_dec j k) as [[J|J]|J].
    - rewrite Z1 by lia. ring.
    - subst j. rewrite (psd_zero_diag n (resid A k) k i) by auto. ring.
    - rewrite (V2 j J). ring. }
  lra.
Qed.

Theorem cholesky_spec : forall n A, sym n A -> pd n A -> is_chol n A (cholesky A).
Proof.
  intros n A Hs HP. pose proof (pd_psd n A HP) as H. unfold is_chol.
  assert (UT : forall i j, (i < n)%nat -> (j < n)%nat -> (i < j)%nat -> cfac A i j = 0).
  { intros i j Hi Hj Hij. unfold cfac, elim_col.
    destruct (Req_EM_T (resid A j j j) 0); auto.
    destruct (resid_inv n A Hs H j ltac:(lia)) as [Sl [_ Zl]].
    rewrite (Sl i j) by lia. rewrite Zl by lia. unfold Rdiv; ring. }
  repeat split.
  - intros i j Hi Hj Hij. unfold cholesky. now rewrite (proj2 (Nat.ltb_lt i j) Hij).
  - intros i Hi. unfold cholesky. rewrite Nat.ltb_irrefl. unfold cfac, elim_col.
    pose proof (resid_pd_diag n A Hs HP i Hi).
    destruct (Req_EM_T (resid A i i i) 0); [lra|].
    unfold Rdiv. apply Rmult_lt_0_compat; auto. apply Rinv_0_lt_compat. now apply sqrt_lt_R0.
  - intros i j Hi Hj. rewrite (psd_factor n A Hs H i j Hi Hj). unfold mm, tr, gram.
    apply sum_ext; intros k Hk. unfold cholesky.
    destruct (Nat.ltb_spec i k), (Nat.ltb_spec j k); rewrite ?(UT i k), ?(UT j k) by auto; ring.
Qed.

(** uniqueness of the Cholesky factor *)
Theorem is_chol_unique : forall n A L M, is_chol n A L -> is_chol n A M -> meq n n L M.
Proof.
  intros n A L M [L1 [L2 L3]] [M1 [M2 M3]].
  (* column by column *)
  assert (X : forall j, (j <= n)%nat -> forall i k, (i < n)%nat -> (k < j)%nat -> L i k = M i k).
  { induction j; intros Hj i k Hi Hk; [lia|].
    destruct (Nat.eq_dec k j) as [->|]; [|apply IHj; lia].
    assert (Split : forall (N : Mat),
       (forall i j, (i < n)%nat -> (j < n)%nat -> (i < j)%nat -> N i j = 0) ->
       forall i, (i < n)%nat -> mm n N (tr N) i j = sum j (fun l => N i l * N j l) + N i j * N j j).
    { intros N HN p Hp. unfold mm, tr.
      replace n with (S j + (n - S j))%nat at 1 by lia.
      rewrite sum_app. simpl.
      rewrite (sum_zero_ext (n - S j)); [ring|].
      intros l Hl. rewrite (HN j (S (j + l))) by lia. ring. }
    assert (D : L j j = M j j).
    { pose proof (L3 j j ltac:(lia) ltac:(lia)) as E1.
      pose proof (M3 j j ltac:(lia) ltac:(lia)) as E2.
      rewrite (Split L L1) in E1 by lia. rewrite (Split M M1) in E2 by lia.
      rewrite (sum_ext j (fun l => L j l * L j l) (fun l => M j l * M j l)) in E1
        by (intros l Hl; rewrite (IHj ltac:(lia) j l) by lia; reflexivity).
      pose proof (L2 j ltac:(lia)). pose proof (M2 j ltac:(lia)).
      assert (L j j * L j j = M j j * M j j) by lra. nra. }
    pose proof (L3 i j ltac:(lia) ltac:(lia)) as E1.
    pose proof (M3 i j ltac:(lia) ltac:(lia)) as E2.
    rewrite (Split L L1) in E1 by lia. rewrite (Split M M1) in E2 by lia.
    rewrite (sum_ext j (fun l => L i l * L j l) (fun l => M i l * M j l)) in E1
      by (intros l Hl; rewrite (IHj ltac:(lia) j l), (IHj ltac:(lia) i l) by lia; reflexivity).
    pose proof (L2 j ltac:(lia)).
    rewrite D in *. apply (Rmult_eq_reg_r (M j j)); [lra|lra]. }
  intros i j Hi Hj. apply (X n (le_n n)); auto.
Qed.

(** ** Triangular solves *)
Fixpoint fsub (L : Mat) (b : Vec) (n : nat) : Vec :=
  match n with
  | O => fun _ => 0
  | S k => let y := fsub L b k in
           upd y k ((b k - sum k (fun j => L k j * y j)) / L k k)
  end.

Lemma fsub_stable : forall L b n m i, (i < n)%nat -> (n <= m)%nat -> fsub L b m i = fsub L b n i.
Proof.
  intros L b n m i Hi Hm. induction m; [lia|].
  destruct (Nat.eq_dec n (S m)) as [->|]; auto.
  simpl. rewrite upd_other by lia. apply IHm. lia.
Qed.

Lemma fsub_spec : forall n L b,
  (forall i j, (i < n)%nat -> (j < n)%nat -> (i < j)%nat -> L i j = 0) ->
  (forall i, (i < n)%nat -> L i i <> 0) ->
  veq n (mv n L (fsub L b n)) b.
Proof.
  intros n L b HL HD i Hi. unfold mv.
  replace n with (S i + (n - S i))%nat at 1 by lia. rewrite sum_app.
  rewrite (sum_zero_ext (n - S i)).
  2:{ intros l Hl. rewrite HL by lia. ring. }
  simpl.
  rewrite (sum_ext i _ (fun j => L i j * fsub L b i j)).
  2:{ intros j Hj. rewrite (fsub_stable L b i n) by lia. reflexivity. }
  rewrite (fsub_stable L b (S i) n i) by lia. simpl. rewrite upd_same.
  field. auto.
Qed.

Lemma tri_unique : forall n L x y,
  (forall i j, (i < n)%nat -> (j < n)%nat -> (i < j)%nat -> L i j = 0) ->
  (forall i, (i < n)%nat -> L i i <> 0) ->
  veq n (mv n L x) (mv n L y) -> veq n x y.
Proof.
  intros n L x y HL HD H.
  assert (X : forall k, (k <= n)%nat -> forall i, (i < k)%nat -> x i = y i).
  { induction k; intros Hk i Hi; [lia|].
    destruct (Nat.eq_dec i k) as [->|]; [|apply IHk; lia].
    assert (S : forall z, mv n L z k = sum k (fun j => L k j * z j) + L k k * z k).
    { intro z. unfold mv. replace n with (S k + (n - S k))%nat at 1 by lia.
      rewrite sum_app. rewrite (sum_zero_ext (n - S k)); [simpl; ring|].
      intros l Hl. rewrite HL by lia. ring. }
    pose proof (H k ltac:(lia)) as E. rewrite !S in E.
    rewrite (sum_ext k (fun j => L k j * x j) (fun j => L k j * y j)) in E
      by (intros j Hj; rewrite (IHk ltac:(lia) j Hj); reflexivity).
    apply (Rmult_eq_reg_l (L k k)); [lra|apply HD; lia]. }
  intros i Hi. apply (X n (le_n n)); auto.
Qed.

(** back substitution: L^T x = b *)
Definition rev_ix (n i : nat) : nat := (n - 1 - i)%nat.
Definition bsub (n : nat) (L : Mat) (b : Vec) : Vec :=
  fun i => fsub (fun p q => L (rev_ix n q) (rev_ix n p)) (fun p => b (rev_ix n p)) n (rev_ix n i).

Lemma sum_rev : forall n f, sum n (fun i => f (rev_ix n i)) = sum n f.
Proof.
  intros. apply (sum_reindex n (rev_ix n) (rev_ix n));
    intros i Hi; unfold rev_ix; split; lia.
Qed.

Lemma bsub_spec : forall n L b,
  (forall i j, (i < n)%nat -> (j < n)%nat -> (i < j)%nat -> L i j = 0) ->
  (forall i, (i < n)%nat -> L i i <> 0) ->
  veq n (mv n (tr L) (bsub n L b)) b.
Proof.
  intros n L b HL HD i Hi.
  set (L' := fun p q => L (rev_ix n q) (rev_ix n p)).
  set (b' := fun p => b (rev_ix n p)).
  assert (E : veq n (mv n L' (fsub L' b' n)) b').
  { apply fsub_spec.
    - intros p q Hp Hq Hpq. unfold L'. apply HL; unfold rev_ix; lia.
    - intros p Hp. unfold L'. apply HD. unfold rev_ix; lia. }
  specialize (E (rev_ix n i) ltac:(unfold rev_ix; lia)).
  unfold b', rev_ix in E. replace (n - 1 - (n - 1 - i))%nat with i in E by lia.
  rewrite <- E. unfold mv, tr, bsub. fold L' b'.
  rewrite <- (sum_rev n (fun j => L j i * fsub L' b' n (rev_ix n j))).
  apply sum_ext. intros j Hj. unfold L'.
  replace (rev_ix n (rev_ix n j)) with j by (unfold rev_ix; lia).
  replace (rev_ix n (n - 1 - i)) with i by (unfold rev_ix; lia). reflexivity.
Qed.

(** ** Solving PD systems *)
Definition chol_solve (n : nat) (A : Mat) (b : Vec) : Vec :=
  bsub n (cholesky A) (fsub (cholesky A) b n).

Theorem chol_solve_spec : forall n A b, sym n A -> pd n A ->
  veq n (mv n A (chol_solve n A b)) b.
Proof.
  intros n A b Hs HP i Hi.
  destruct (cholesky_spec n A Hs HP) as [C1 [C2 C3]].
  assert (C2' : forall i, (i < n)%nat -> cholesky A i i <> 0)
    by (intros k Hk; specialize (C2 k Hk); lra).
  rewrite <- (mv_ext n n (mm n (cholesky A) (tr (cholesky A))) A
                (chol_solve n A b) (chol_solve n A b) C3 (fun _ _ => eq_refl) i Hi).
  rewrite mv_mm. unfold chol_solve.
  rewrite (mv_ext n n (cholesky A) (cholesky A) _ (fsub (cholesky A) b n)
             (meq_refl _ _ _) (bsub_spec n _ _ C1 C2') i Hi).
  apply fsub_spec; auto.
Qed.

(** PD matrices are injective *)
Lemma pd_inj0 : forall n A v, pd n A -> (forall i, (i < n)%nat -> mv n A v i = 0) ->
  forall i, (i < n)%nat -> v i = 0.
Proof.
  intros n A v HP H. destruct (nonzero_dec n v) as [N|N]; auto.
  specialize (HP v N). rewrite qf_dot in HP. unfold dot in HP.
  rewrite sum_zero_ext in HP; [lra|]. intros i Hi. rewrite H by auto. ring.
Qed.

Lemma mv_sub : forall m A u v i, mv m A (fun j => u j - v j) i = mv m A u i - mv m A v i.
Proof. intros. unfold mv. rewrite <- sum_minus. apply sum_ext; intros; ring. Qed.

Lemma mv_add : forall m A u v i, mv m A (fun j => u j + v j) i = mv m A u i + mv m A v i.
Proof. intros. unfold mv. rewrite <- sum_plus. apply sum_ext; intros; ring. Qed.

Lemma mv_scal : forall m A c v i, mv m A (fun j => c * v j) i = c * mv m A v i.
Proof. intros. unfold mv. rewrite <- sum_scal_l. apply sum_ext; intros; ring. Qed.

Theorem pd_inj : forall n A u v, pd n A -> veq n (mv n A u) (mv n A v) -> veq n u v.
Proof.
  intros n A u v HP H i Hi.
  assert (u i - v i = 0); [|lra].
  apply (pd_inj0 n A (fun j => u j - v j) HP); auto.
  intros k Hk. rewrite mv_sub, H by auto. ring.
Qed.

(** inverse *)
Definition is_inv (n : nat) (A B : Mat) : Prop := meq n n (mm n A B) eye.

Lemma pd_inv_left : forall n A B, pd n A -> is_inv n A B -> meq n n (mm n B A) eye.
Proof.
  intros n A B HP H i j Hi Hj.
  assert (E : veq n (fun k => mm n B A k j) (fun k => eye k j)); [|apply E; auto].
  apply (pd_inj n A); auto.
  intros k Hk. unfold mv.
  transitivity (mm n (mm n A B) A k j); [symmetry; apply mm_assoc|].
  unfold mm at 1. rewrite (sum_ext n _ (fun l => eye k l * A l j)).
  - unfold eye. rewrite sum_delta_l by auto.
    rewrite sum_delta_r' by auto. reflexivity.
  - intros l Hl. rewrite H by auto. reflexivity.
Qed.

Lemma inv_sym : forall n A B, sym n A -> pd n A -> is_inv n A B -> sym n B.
Proof.
  intros n A B Hs HP H i j Hi Hj.
  pose proof (pd_inv_left n A B HP H) as HL.
  (* B = B (A B^T) where A B^T = (B A)^T = I *)
  transitivity (mm n B (mm n A (tr B)) i j).
  - unfold mm at 1. rewrite (sum_ext n _ (fun k => B i k * eye k j)).
    + unfold eye. now rewrite sum_delta_r' by auto.
    + intros k Hk. f_equal. unfold mm, tr.
      transitivity (mm n B A j k).
      * unfold mm. apply sum_ext; intros l Hl. rewrite (Hs k l) by auto. ring.
      * rewrite HL by auto. unfold eye; apply delta_sym.
  - rewrite <- mm_assoc. unfold mm at 1. rewrite (sum_ext n _ (fun k => eye i k * tr B k j)).
    + unfold eye. rewrite sum_delta_l by auto. reflexivity.
    + intros k Hk. rewrite HL by auto. reflexivity.
Qed.

Definition chol_inv (n : nat) (A : Mat) : Mat := fun i j => chol_solve n A (delta j) i.

Theorem chol_inv_spec : forall n A, sym n A -> pd n A -> is_inv n A (chol_inv n A).
Proof.
  intros n A Hs HP i j Hi Hj. unfold mm, chol_inv.
  pose proof (chol_solve_spec n A (delta j) Hs HP i Hi) as E. unfold mv in E.
  rewrite E. apply delta_sym.
Qed.

Lemma inv_pd : forall n A B, sym n A -> pd n A -> is_inv n A B -> pd n B.
Proof.
  intros n A B Hs HP H v Hv.
  set (u := mv n B v).
  assert (E : veq n (mv n A u) v).
  { intros i Hi. unfold u. rewrite <- mv_mm. unfold mv.
    rewrite (sum_ext n _ (fun j => eye i j * v j)).
    - apply sum_delta_l; auto.
    - intros j Hj. rewrite H; auto. }
  assert (N : nonzero n u).
  { destruct (nonzero_dec n u) as [|Z]; auto. destruct Hv as [i [Hi Hvi]].
    exfalso. apply Hvi. rewrite <- (E i Hi). unfold mv. apply sum_zero_ext.
    intros j Hj. rewrite Z by auto. ring. }
  specialize (HP u N). rewrite qf_dot in *. fold u.
  replace (dot n v u) with (dot n u (mv n A u)); auto.
  rewrite dot_comm. apply dot_ext; auto. intros ? ?; reflexivity.
Qed.
