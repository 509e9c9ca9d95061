(** The Lanczos iteration: orthonormal vectors and the three-term relation. *)
From Coq Require Import Reals Arith Lia Lra List.
From Verif Require Import Base.Sums Base.Mat Base.PSD Model.Arrays Model.Lanczos.
Open Scope R_scope.

Lemma dot_sub_scal : forall n w t u v, dot n (fun i => w i - t * u i) v = dot n w v - t * dot n u v.
Proof.
  intros. unfold dot. rewrite <- sum_scal_l, <- sum_minus. apply sum_ext. intros. ring.
Qed.
Lemma dot_scal_l : forall n t u v, dot n (fun i => t * u i) v = t * dot n u v.
Proof. intros. unfold dot. rewrite <- sum_scal_l. apply sum_ext. intros. ring. Qed.
Lemma dot_add_l : forall n u u' v, dot n (fun i => u i + u' i) v = dot n u v + dot n u' v.
Proof. intros. unfold dot. rewrite <- sum_plus. apply sum_ext. intros. ring. Qed.
Lemma dot_sum_l : forall n p (c : Vec) (V : Mat) v, dot n (fun i => sum p (fun a => c a * V i a)) v = sum p (fun a => c a * dot n (col V a) v).
Proof.
  intros. unfold dot.
  rewrite (sum_ext n _ (fun i => sum p (fun a => c a * V i a * v i))) by (intros; symmetry; apply sum_scal_r).
  rewrite sum_swap. apply sum_ext. intros a _. rewrite <- sum_scal_l. apply sum_ext. intros. unfold col. ring.
Qed.
Lemma dot_zero_l : forall n u v, (forall i, (i < n)%nat -> u i = 0) -> dot n u v = 0.
Proof. intros. unfold dot. apply sum_zero_ext. intros. rewrite H by auto. ring. Qed.
Lemma vnorm_sq : forall n v, vnorm n v * vnorm n v = dot n v v.
Proof. intros. apply sqrt_sqrt, dot_nonneg. Qed.
Lemma vnorm_nonneg : forall n v, 0 <= vnorm n v.
Proof. intros. apply sqrt_pos. Qed.
Lemma vnorm_zero : forall n v, vnorm n v = 0 -> forall i, (i < n)%nat -> v i = 0.
Proof. intros n v H. apply dot_zero. rewrite <- vnorm_sq, H. ring. Qed.
Lemma vnorm_div : forall n v b, b = vnorm n v -> b <> 0 -> dot n (fun i => v i / b) (fun i => v i / b) = 1.
Proof.
  intros n v b E H. assert (dot n (fun i => v i / b) (fun i => v i / b) = dot n v v / (b * b)).
  { unfold dot. unfold Rdiv at 3. rewrite <- sum_scal_r. apply sum_ext. intros. field. auto. }
  rewrite H0, <- vnorm_sq, <- E. field. auto.
Qed.

Lemma mgs : forall n V v p,
  (forall a b, (a < p)%nat -> (b < p)%nat -> a <> b -> dot n (col V a) (col V b) = 0) ->
  (forall a, (a < p)%nat -> dot n (col V a) (col V a) = 1 \/ (forall i, (i < n)%nat -> V i a = 0)) ->
  (forall a, (a < p)%nat -> dot n (orthogonalize n p v V) (col V a) = 0) /\
  exists c : Vec, forall i, orthogonalize n p v V i = v i - sum p (fun a => c a * V i a).
Proof.
  intros n V v. induction p; intros O N.
  - split; [lia|]. exists (fun _ => 0). intro. unfold orthogonalize. simpl. ring.
  - destruct IHp as [H1 [c H2]]; [auto with arith|auto with arith|]. unfold orthogonalize in *. cbn [fori]. match goal with |- context [fori p ?f v] => set (w := fori p f v) in * end.
    split.
    + intros a Ha. rewrite (dot_sub_scal n w _ (col V p)). destruct (Nat.eq_dec a p) as [->|D].
      * destruct (N p) as [E|E]; [lia|rewrite E; ring|]. rewrite (dot_comm n w), (dot_zero_l n (col V p)) by (intros; apply E; auto). ring.
      * rewrite H1 by lia. rewrite (O p a) by lia. ring.
    + exists (fun a => if Nat.eqb a p then dot n w (col V p) else c a). intro i. rewrite H2. cbn [sum]. rewrite Nat.eqb_refl.
      rewrite (sum_ext p (fun a => (if Nat.eqb a p then _ else c a) * V i a) (fun a => c a * V i a)).
      * lra.
      * intros a Ha. destruct (Nat.eqb_spec a p); [lia|reflexivity].
Qed.

Lemma set_col_same : forall V a v i, set_col V a v i a = v i.
Proof. intros. unfold set_col. now rewrite Nat.eqb_refl. Qed.
Lemma set_col_other : forall V a v i b, b <> a -> set_col V a v i b = V i b.
Proof. intros. unfold set_col. destruct (Nat.eqb_spec b a); [contradiction|reflexivity]. Qed.
Lemma set_entry_same : forall T a b x, set_entry T a b x a b = x.
Proof. intros. unfold set_entry. now rewrite !Nat.eqb_refl. Qed.
Lemma set_entry_other : forall T a b x i j, i <> a \/ j <> b -> set_entry T a b x i j = T i j.
Proof. intros. unfold set_entry. destruct (Nat.eqb_spec i a), (Nat.eqb_spec j b); simpl; try reflexivity. lia. Qed.

Section Run.
  Context (n m : nat) (A : Mat) (matvec : Vec -> Vec) (v1 : Vec) (draw : nat -> Vec).
  Hypothesis Asym : sym n A.
  Hypothesis MV : forall z i, (i < n)%nat -> matvec z i = mv n A z i.
  Hypothesis U : dot n v1 v1 = 1.
  Definition state_at (j : nat) : lz_state := fori j (lz_step n m matvec draw) (lz_init n matvec v1).

  Record inv (j : nat) (s : lz_state) : Prop := {
    i_on : forall a b, (a <= j)%nat -> (b <= j)%nat -> dot n (col (lz_V s) a) (col (lz_V s) b) = delta a b;
    i_zero : forall a i, (j < a)%nat -> lz_V s i a = 0;
    i_w : forall a, (a <= j)%nat -> dot n (lz_w s) (col (lz_V s) a) = 0;
    i_beta : lz_beta s = vnorm n (lz_w s);
    i_last : exists c : Vec, forall i, (i < n)%nat -> mv n A (col (lz_V s) j) i = lz_w s i + sum (S j) (fun a => c a * lz_V s i a);
    i_rel : forall a, (a < j)%nat -> exists (r c : Vec),
      (forall i, (i < n)%nat -> mv n A (col (lz_V s) a) i = r i + sum (S a) (fun b => c b * lz_V s i b)) /\
      ((forall i, (i < n)%nat -> r i = lz_T s a (S a) * lz_V s i (S a)) \/
       (vnorm n r = lz_T s a (S a) /\ 0 < lz_T s a (S a) <= beta_threshold));
    i_diag : forall a, (a <= j)%nat -> lz_T s a a = dot n (col (lz_V s) a) (mv n A (col (lz_V s) a));
    i_off : forall a, (a < j)%nat -> lz_T s (S a) a = lz_T s a (S a) /\ 0 <= lz_T s a (S a);
    i_tri : forall a b, a <> b -> a <> S b -> b <> S a -> lz_T s a b = 0
  }.

  Lemma dot_MV : forall v z, dot n (matvec v) z = dot n (mv n A v) z.
  Proof. intros. apply dot_ext; intros i Hi; auto. Qed.
  Lemma inv_init : inv 0 (lz_init n matvec v1).
  Proof.
    assert (C0 : forall i, lz_V (lz_init n matvec v1) i 0%nat = v1 i) by (intro; reflexivity).
    assert (D : forall u, dot n u (col (lz_V (lz_init n matvec v1)) 0) = dot n u v1).
    { intro u. apply dot_ext; [intros i _; reflexivity|intros i _; apply C0]. }
    constructor.
    - intros a b Ha Hb. replace a with 0%nat by lia. replace b with 0%nat by lia. rewrite D, dot_comm, D. exact U.
    - intros a i Ha. cbn. unfold set_col. destruct (Nat.eqb_spec a 0); [lia|reflexivity].
    - intros a Ha. replace a with 0%nat by lia. rewrite D. cbn. rewrite dot_sub_scal, U. ring.
    - reflexivity.
    - exists (fun _ => dot n (matvec v1) v1). intros i Hi. cbn. rewrite <- MV by auto. change (col (set_col (fun _ _ => 0) 0 v1) 0) with v1. unfold set_col. cbn. ring.
    - intros a Ha. lia.
    - intros a Ha. replace a with 0%nat by lia. rewrite (dot_comm n (col _ 0)), D. cbn. rewrite dot_MV. apply dot_ext; intros i Hi; reflexivity.
    - intros a Ha. lia.
    - intros a b H1 H2 H3. cbn. apply set_entry_other. lia.
  Qed.

  (** the vector of a restart can be normalised *)
  Definition fresh (j : nat) (V : Mat) : Prop := forall c : Vec, ~ (forall i, (i < n)%nat -> draw j i = sum (S j) (fun a => c a * V i a)).
  Lemma inv_step : forall j s, inv j s -> (S j < m)%nat -> (lz_beta s <= beta_threshold -> fresh j (lz_V s)) -> inv (S j) (lz_step n m matvec draw j s).
  Proof.
    intros j s I Hm F. set (V := lz_V s). set (w := lz_w s). set (beta := lz_beta s).
    set (v := fun i => if Rlt_dec beta_threshold beta then w i / beta else orthonormalize n m (draw j) V i).
    assert (TH : 0 < beta_threshold) by (apply Rinv_0_lt_compat, pow_lt; lra).
    assert (B0 : 0 <= beta) by (unfold beta; rewrite (i_beta _ _ I); apply vnorm_nonneg).
    assert (OV : forall a b, a <> b -> dot n (col V a) (col V b) = 0).
    { intros a b D. destruct (le_lt_dec a j) as [Ha|Ha]; [|apply dot_zero_l; intros i _; apply (i_zero _ _ I); auto].
      destruct (le_lt_dec b j) as [Hb|Hb]; [|rewrite dot_comm; apply dot_zero_l; intros i _; apply (i_zero _ _ I); auto].
      rewrite (i_on _ _ I) by auto. apply delta_diff. auto. }
    assert (NV : forall a, dot n (col V a) (col V a) = 1 \/ (forall i, (i < n)%nat -> V i a = 0)).
    { intros a. destruct (le_lt_dec a j) as [Ha|Ha]; [left; rewrite (i_on _ _ I) by auto; apply delta_same|right; intros; apply (i_zero _ _ I); auto]. }
    assert (NW : beta_threshold < beta -> beta <> 0) by lra.
    assert (Vv : (dot n v v = 1 /\ forall a, (a <= j)%nat -> dot n v (col V a) = 0) /\
      ((forall i, (i < n)%nat -> w i = beta * v i) \/ (vnorm n w = beta /\ 0 < beta <= beta_threshold))).
    { unfold v. destruct (Rlt_dec beta_threshold beta) as [L|L].
      - split; [split|].
        + apply vnorm_div; [apply (i_beta _ _ I)|auto].
        + intros a Ha. rewrite (dot_ext n _ (col V a) (fun i => / beta * w i) (col V a)); [|intros i _; unfold Rdiv; ring|intros i _; reflexivity].
          rewrite dot_scal_l. unfold w, V. rewrite (i_w _ _ I) by auto. ring.
        + left. intros i _. field. auto.
      - assert (L' : beta <= beta_threshold) by lra. destruct (mgs n V (draw j) m) as [H1 [c H2]]; [auto|auto|].
        assert (NZ : vnorm n (orthogonalize n m (draw j) V) <> 0).
        { intro Z. apply (F L' c). intros i Hi. assert (X := vnorm_zero _ _ Z i Hi). rewrite H2 in X.
          assert (Y : sum m (fun a => c a * V i a) = sum (S j) (fun a => c a * V i a)).
          { replace m with (S j + (m - S j))%nat by lia. rewrite sum_app. rewrite (sum_zero_ext (m - S j)); [ring|]. intros b Hb. unfold V. rewrite (i_zero _ _ I) by lia. ring. }
          fold V. lra. }
        split; [split|].
        + unfold orthonormalize. apply vnorm_div; auto.
        + intros a Ha. unfold orthonormalize. rewrite (dot_ext n _ (col V a) (fun i => / vnorm n (orthogonalize n m (draw j) V) * orthogonalize n m (draw j) V i) (col V a)); [|intros i _; unfold Rdiv; ring|intros i _; reflexivity].
          rewrite dot_scal_l, H1 by lia. ring.
        + destruct (Req_dec beta 0) as [Z|Z].
          * left. intros i Hi. rewrite Z, Rmult_0_l. apply (vnorm_zero n w); [|auto]. unfold w. rewrite <- (i_beta _ _ I). exact Z.
          * right. split; [symmetry; apply (i_beta _ _ I)|lra]. }
    destruct Vv as [[V1 V2] V3].
    set (V' := set_col V (j + 1) v). assert (J1 : (j + 1 = S j)%nat) by lia.
    assert (CO : forall a, (a <= j)%nat -> col V' a = col V a).
    { intros a Ha. unfold col, V', set_col. destruct (Nat.eqb_spec a (j + 1)); [lia|reflexivity]. }
    assert (COi : forall a i, (a <= j)%nat -> V' i a = lz_V s i a). { intros a i Ha. change (V' i a) with (col V' a i). now rewrite CO. }
    assert (CN : col V' (S j) = v). { unfold col, V', set_col. rewrite J1, Nat.eqb_refl. reflexivity. }
    assert (CZ : forall a i, (S j < a)%nat -> V' i a = 0). { intros a i Ha. unfold V'. rewrite set_col_other by lia. apply (i_zero _ _ I). lia. }
    assert (ON : forall a b, (a <= S j)%nat -> (b <= S j)%nat -> dot n (col V' a) (col V' b) = delta a b).
    { intros a b Ha Hb. destruct (Nat.eq_dec a (S j)) as [->|Da]; destruct (Nat.eq_dec b (S j)) as [->|Db].
      - rewrite CN, V1. symmetry. apply delta_same.
      - rewrite CN, (CO b) by lia. rewrite V2 by lia. symmetry. apply delta_diff. lia.
      - rewrite CN, (CO a) by lia. rewrite dot_comm, V2 by lia. symmetry. apply delta_diff. lia.
      - rewrite (CO a), (CO b) by lia. apply (i_on _ _ I); lia. }
    set (alpha := dot n (matvec v) v). set (w1 := fun i => matvec v i - alpha * v i - beta * V' i j).
    destruct (mgs n V' w1 m) as [W1 [c W2]].
    { intros a b Ha Hb D. destruct (le_lt_dec a (S j)) as [La|La]; [|apply dot_zero_l; intros i _; apply CZ; auto].
      destruct (le_lt_dec b (S j)) as [Lb|Lb]; [|rewrite dot_comm; apply dot_zero_l; intros i _; apply CZ; auto].
      rewrite ON by auto. apply delta_diff. auto. }
    { intros a Ha. destruct (le_lt_dec a (S j)) as [La|La]; [left; rewrite ON by auto; apply delta_same|right; intros; apply CZ; auto]. }
    set (T' := lz_T (lz_step n m matvec draw j s)).
    assert (T1 : T' (S j) (S j) = alpha).
    { unfold T'. cbn. fold beta w V v alpha. rewrite J1. rewrite !set_entry_other by lia. rewrite set_entry_same. reflexivity. }
    assert (T2 : T' j (S j) = beta). { unfold T'. cbn. rewrite J1. rewrite set_entry_other by lia. apply set_entry_same. }
    assert (T3 : T' (S j) j = beta). { unfold T'. cbn. rewrite J1. apply set_entry_same. }
    assert (T4 : forall a b, (a <> S j \/ b <> S j) -> (a <> j \/ b <> S j) -> (a <> S j \/ b <> j) -> T' a b = lz_T s a b).
    { intros a b Q1 Q2 Q3. unfold T'. cbn. rewrite J1. rewrite !set_entry_other by lia. reflexivity. }
    change (lz_step n m matvec draw j s) with
      {| lz_beta := vnorm n (orthogonalize n m w1 V'); lz_w := orthogonalize n m w1 V'; lz_T := T'; lz_V := V' |}.
    constructor; cbn [lz_V lz_w lz_T lz_beta].
    - exact ON.
    - exact CZ.
    - intros a Ha. apply W1. lia.
    - reflexivity.
    - exists (fun a => c a + (if Nat.eqb a (S j) then alpha else 0) + (if Nat.eqb a j then beta else 0)). intros i Hi. rewrite CN, W2, <- MV by auto.
      assert (Y : sum m (fun a => c a * V' i a) = sum (S (S j)) (fun a => c a * V' i a)).
      { replace m with (S (S j) + (m - S (S j)))%nat by lia. rewrite sum_app. rewrite (sum_zero_ext (m - S (S j))); [ring|]. intros b Hb. rewrite CZ by lia. ring. }
      rewrite Y. unfold w1.
      assert (Z : sum (S (S j)) (fun a => (c a + (if Nat.eqb a (S j) then alpha else 0) + (if Nat.eqb a j then beta else 0)) * V' i a)
        = sum (S (S j)) (fun a => c a * V' i a) + alpha * V' i (S j) + beta * V' i j).
      { rewrite (sum_ext _ _ (fun a => c a * V' i a + delta a (S j) * (alpha * V' i a) + delta a j * (beta * V' i a))).
        - rewrite !sum_plus. rewrite !sum_delta_l' by lia. reflexivity.
        - intros a _. unfold delta. destruct (Nat.eqb a (S j)), (Nat.eqb a j); ring. }
      rewrite Z. replace (V' i (S j)) with (v i) by (rewrite <- CN; reflexivity). ring.
    - intros a Ha. destruct (Nat.eq_dec a j) as [->|D].
      + destruct (i_last _ _ I) as [c' H]. exists w, c'. split.
        * intros i Hi. rewrite CO by lia. fold V in H. rewrite H by auto. f_equal. apply sum_ext. intros b Hb. f_equal. symmetry. apply COi. lia.
        * rewrite T2. replace (fun i => w i) with w by reflexivity. destruct V3 as [V3|V3]; [left|right; exact V3].
          intros i Hi. rewrite V3 by auto. f_equal. rewrite <- CN. reflexivity.
      + destruct (i_rel _ _ I a) as [r [c' [H1 H2]]]; [lia|]. exists r, c'. split.
        * intros i Hi. rewrite CO by lia. fold V in H1. rewrite H1 by auto. f_equal. apply sum_ext. intros b Hb. f_equal. symmetry. apply COi. lia.
        * rewrite T4 by lia. destruct H2 as [H2|H2]; [left|right; exact H2]. intros i Hi. rewrite H2 by auto. f_equal. symmetry. apply COi. lia.
    - intros a Ha. destruct (Nat.eq_dec a (S j)) as [->|D].
      + rewrite T1, CN. unfold alpha. rewrite dot_MV, dot_comm. reflexivity.
      + rewrite T4 by lia. rewrite CO by lia. apply (i_diag _ _ I). lia.
    - intros a Ha. destruct (Nat.eq_dec a j) as [->|D].
      + rewrite T2, T3. auto.
      + rewrite !T4 by lia. apply (i_off _ _ I). lia.
    - intros a b Q1 Q2 Q3. rewrite T4 by lia. apply (i_tri _ _ I); auto.
  Qed.

  (** entries set once are kept *)
  Lemma V_kept : forall k j i a, (a <= j)%nat -> lz_V (state_at (j + k)) i a = lz_V (state_at j) i a.
  Proof.
    induction k; intros j i a Ha; [now rewrite Nat.add_0_r|]. rewrite <- (IHk j i a Ha). rewrite Nat.add_succ_r. unfold state_at. cbn [fori]. cbn.
    rewrite set_col_other by lia. reflexivity.
  Qed.
  Lemma T_kept : forall k j, lz_T (state_at (S j + k)) j (S j) = lz_beta (state_at j).
  Proof.
    induction k; intros j.
    - rewrite Nat.add_0_r. unfold state_at. cbn [fori]. cbn. rewrite Nat.add_1_r. rewrite set_entry_other by lia. apply set_entry_same.
    - rewrite <- (IHk j). rewrite Nat.add_succ_r. unfold state_at at 1. cbn [fori]. cbn. rewrite !set_entry_other by lia. reflexivity.
  Qed.
  Definition restarts (T V : Mat) : Prop := forall j, (S j < m)%nat -> T j (S j) <= beta_threshold ->
    forall c : Vec, ~ (forall i, (i < n)%nat -> draw j i = sum (S j) (fun a => c a * V i a)).
  Lemma inv_run : restarts (lz_T (state_at (m - 1))) (lz_V (state_at (m - 1))) -> forall j, (j < m)%nat -> inv j (state_at j).
  Proof.
    intros R. induction j; intros Hj; [apply inv_init|]. change (state_at (S j)) with (lz_step n m matvec draw j (state_at j)).
    apply inv_step; [apply IHj; lia|auto|]. intros L c E.
    replace (m - 1)%nat with (S j + (m - 1 - S j))%nat in R by lia. apply (R j Hj) with (c := c).
    - rewrite T_kept. exact L.
    - intros i Hi. rewrite (E i Hi). apply sum_ext. intros a Ha. f_equal. replace (S j + (m - 1 - S j))%nat with (j + (m - 1 - j))%nat by lia. symmetry. apply V_kept. lia.
  Qed.
End Run.
