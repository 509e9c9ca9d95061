(** From the Lanczos relation to quadrature and the log-determinant. *)
From Coq Require Import Reals Arith Lia Lra List.
From Verif Require Import Base.Sums Base.Mat Base.PSD Model.Arrays Model.Lanczos Spec.LanczosSpec Proofs.LanczosFacts.
Open Scope R_scope.

Lemma mm_col : forall n A V a b, mm n A V a b = mv n A (col V b) a.
Proof. reflexivity. Qed.
Lemma mmm_dot : forall n A V a b, mm n (tr V) (mm n A V) a b = dot n (col V a) (mv n A (col V b)).
Proof. reflexivity. Qed.
Lemma dot_cs : forall n u v, Rabs (dot n u v) <= vnorm n u * vnorm n v.
Proof.
  intros. unfold vnorm. rewrite <- sqrt_mult by apply dot_nonneg. rewrite <- (sqrt_Rsqr_abs (dot n u v)). apply sqrt_le_1_alt.
  unfold Rsqr. pose proof (cauchy_schwarz n u v). unfold dot in *. lra.
Qed.

Section Out.
  Context (n m : nat) (A : Mat) (matvec : Vec -> Vec) (v1 : Vec) (draw : nat -> Vec) (T V : Mat).
  Hypothesis Asym : sym n A.
  Hypothesis MV : forall z i, (i < n)%nat -> matvec z i = mv n A z i.
  Hypothesis U : dot n v1 v1 = 1.
  Hypothesis Hm : (0 < m)%nat.
  Hypothesis E : lanczos_tridiagonal matvec m n v1 draw = (T, V).
  Hypothesis R : restarts_ok n m T V draw.

  Lemma final_inv : exists s, lz_T s = T /\ lz_V s = V /\ inv n A (m - 1) s.
  Proof.
    exists (state_at n m matvec v1 draw (m - 1)). injection E as E1 E2. split; [exact E1|]. split; [exact E2|].
    apply inv_run; auto; [|lia]. unfold restarts. unfold state_at. rewrite E1, E2. exact R.
  Qed.
  Lemma orthonormal : forall a b, (a < m)%nat -> (b < m)%nat -> dot n (col V a) (col V b) = delta a b.
  Proof. destruct final_inv as [s [<- [<- I]]]. intros. apply (i_on _ _ _ _ I); lia. Qed.
  Lemma first_col : forall i, V i 0%nat = v1 i.
  Proof.
    intro i. injection E as _ E2. rewrite <- E2. change (fori (m - 1) (lz_step n m matvec draw) (lz_init n matvec v1)) with (state_at n m matvec v1 draw (0 + (m - 1))). rewrite V_kept by lia. reflexivity.
  Qed.
  Lemma tri_sym : (forall a b, (a < m)%nat -> (b < m)%nat -> T a b = T b a) /\ (forall a b, a <> b -> a <> S b -> b <> S a -> T a b = 0) /\
    (forall a, (S a < m)%nat -> 0 <= T a (S a)).
  Proof.
    destruct final_inv as [s [<- [<- I]]]. split; [|split].
    - intros a b Ha Hb. destruct (Nat.eq_dec a b) as [->|D]; [reflexivity|]. destruct (Nat.eq_dec a (S b)) as [->|D1]; [apply (i_off _ _ _ _ I b); lia|].
      destruct (Nat.eq_dec b (S a)) as [->|D2]; [symmetry; apply (i_off _ _ _ _ I a); lia|]. rewrite !(i_tri _ _ _ _ I) by auto. reflexivity.
    - apply (i_tri _ _ _ _ I).
    - intros a Ha. apply (i_off _ _ _ _ I a). lia.
  Qed.
  Lemma below : forall a b, (a < b)%nat -> (b < m)%nat ->
    Rabs (dot n (col V b) (mv n A (col V a)) - T a b) <= 2 / 10 ^ 12 /\
    (T a (S a) = 0 \/ / 10 ^ 12 < T a (S a) -> dot n (col V b) (mv n A (col V a)) = T a b).
  Proof.
    destruct final_inv as [s [<- [<- I]]]. intros a b Hab Hb. destruct (i_rel _ _ _ _ I a) as [r [c [H1 H2]]]; [lia|].
    assert (P : 0 < / 10 ^ 12) by (apply Rinv_0_lt_compat, pow_lt; lra).
    assert (X : dot n (col (lz_V s) b) (mv n A (col (lz_V s) a)) = dot n r (col (lz_V s) b)).
    { rewrite dot_comm. rewrite (dot_ext n _ (col (lz_V s) b) (fun i => r i + sum (S a) (fun b => c b * lz_V s i b)) (col (lz_V s) b)); [|intros i Hi; apply H1; auto|intros i _; reflexivity].
      rewrite dot_add_l, dot_sum_l. rewrite sum_zero_ext; [ring|]. intros k Hk. rewrite (i_on _ _ _ _ I) by lia. rewrite delta_diff by lia. ring. }
    rewrite X. destruct H2 as [H2|[H2 H3]].
    - assert (Y : dot n r (col (lz_V s) b) = lz_T s a b).
      { rewrite (dot_ext n r (col (lz_V s) b) (fun i => lz_T s a (S a) * col (lz_V s) (S a) i) (col (lz_V s) b)); [|intros i Hi; apply H2; auto|intros i _; reflexivity].
        rewrite dot_scal_l. rewrite (i_on _ _ _ _ I) by lia. destruct (Nat.eq_dec b (S a)) as [->|D]; [rewrite delta_same; ring|].
        rewrite delta_diff by lia. rewrite (i_tri _ _ _ _ I a b) by lia. ring. }
      rewrite Y. split; [|reflexivity]. replace (lz_T s a b - lz_T s a b) with 0 by ring. rewrite Rabs_R0. unfold Rdiv. lra.
    - assert (B : Rabs (dot n r (col (lz_V s) b)) <= / 10 ^ 12).
      { eapply Rle_trans; [apply dot_cs|]. rewrite H2. assert (Z : vnorm n (col (lz_V s) b) = 1) by (unfold vnorm; rewrite (i_on _ _ _ _ I) by lia; rewrite delta_same; apply sqrt_1). rewrite Z. unfold beta_threshold in H3. lra. }
      assert (B' : Rabs (lz_T s a b) <= / 10 ^ 12).
      { destruct (Nat.eq_dec b (S a)) as [->|D]; [rewrite Rabs_right; unfold beta_threshold in H3; lra|]. rewrite (i_tri _ _ _ _ I a b) by lia. rewrite Rabs_R0. lra. }
      split; [|unfold beta_threshold in H3; intros [Z|Z]; lra]. eapply Rle_trans; [apply Rabs_triang|]. rewrite Rabs_Ropp. unfold Rdiv. lra.
  Qed.
  Lemma reduced : forall a b, (a < m)%nat -> (b < m)%nat -> Rabs (mm n (tr V) (mm n A V) a b - T a b) <= 2 / 10 ^ 12 /\
    (no_tiny m T -> mm n (tr V) (mm n A V) a b = T a b).
  Proof.
    intros a b Ha Hb. rewrite mmm_dot. destruct (lt_eq_lt_dec a b) as [[L|L]|L].
    - destruct (below a b L Hb) as [B1 B2]. assert (X : dot n (col V a) (mv n A (col V b)) = dot n (col V b) (mv n A (col V a))).
      { rewrite <- !bf_dot. apply bf_sym. auto. }
      rewrite X. split; auto. intro Q. apply B2. apply Q. lia.
    - subst b. destruct final_inv as [s [<- [<- I]]]. rewrite <- (i_diag _ _ _ _ I) by lia. split; [|reflexivity].
      replace (lz_T s a a - lz_T s a a) with 0 by ring. rewrite Rabs_R0. assert (0 < / 10 ^ 12) by (apply Rinv_0_lt_compat, pow_lt; lra). unfold Rdiv. lra.
    - destruct (below b a L Ha) as [B1 B2]. destruct tri_sym as [TS _]. rewrite (TS a b) by auto. split; auto. intro Q. apply B2. apply Q. lia.
  Qed.

  (** the relation A V = V T, except for the last column *)
  Hypothesis NT : no_tiny m T.
  Lemma lanczos_relation : forall a i, (S a < m)%nat -> (i < n)%nat -> mv n A (col V a) i = sum m (fun b => T b a * V i b).
  Proof.
    intros a i Ha Hi. destruct tri_sym as [TS [TZ _]]. destruct final_inv as [s [ET [EV I]]]. destruct (i_rel _ _ _ _ I a) as [r [c [H1 H2]]]; [lia|].
    rewrite ET, EV in *. assert (H2' : forall i, (i < n)%nat -> r i = T a (S a) * V i (S a)).
    { destruct H2 as [H2|[H2 H3]]; [exact H2|]. unfold beta_threshold in H3. destruct (NT a Ha); lra. }
    assert (C : forall b, (b <= a)%nat -> c b = T b a).
    { intros b Hb. destruct (reduced b a) as [_ X]; [lia|lia|]. rewrite <- (X NT), mmm_dot, dot_comm.
      rewrite (dot_ext n _ (col V b) (fun i => r i + sum (S a) (fun b => c b * V i b)) (col V b)); [|intros k Hk; apply H1; auto|intros k _; reflexivity].
      rewrite dot_add_l, dot_sum_l. rewrite (dot_ext n r (col V b) (fun i => T a (S a) * col V (S a) i) (col V b)); [|intros k Hk; apply H2'; auto|intros k _; reflexivity].
      rewrite dot_scal_l, orthonormal by lia. rewrite delta_diff by lia.
      rewrite (sum_ext _ _ (fun k => delta k b * c k)); [rewrite sum_delta_l' by lia; ring|]. intros k Hk. rewrite orthonormal by lia. ring. }
    rewrite H1, H2' by auto. replace m with (S (S a) + (m - S (S a)))%nat by lia. rewrite sum_app.
    rewrite (sum_zero_ext (m - S (S a))); [|intros k Hk; rewrite TZ by lia; ring].
    cbn [sum]. rewrite (TS (S a) a) by lia. rewrite (C a) by lia. rewrite (sum_ext a (fun b => c b * V i b) (fun b => T b a * V i b)); [ring|]. intros b Hb. rewrite C by lia. reflexivity.
  Qed.
  Definition e0 : Vec := delta 0.
  Lemma power_support : forall k j, (k < j)%nat -> power m T k e0 j = 0.
  Proof.
    destruct tri_sym as [_ [TZ _]]. induction k; intros j Hj; [apply delta_diff; lia|]. cbn. unfold mv. apply sum_zero_ext. intros l Hl.
    destruct (le_lt_dec l k) as [L|L]; [rewrite TZ by lia; ring|rewrite IHk by auto; ring].
  Qed.
  Lemma krylov : forall k i, (k < m)%nat -> (i < n)%nat -> power n A k v1 i = mv m V (power m T k e0) i.
  Proof.
    induction k; intros i Hk Hi.
    - cbn. unfold mv, e0. rewrite sum_delta_r by auto. symmetry. apply first_col.
    - cbn. rewrite (mv_ext n n A A _ (mv m V (power m T k e0)) (meq_refl _ _ _)); [|intros j Hj; apply IHk; [lia|auto]|auto].
      unfold mv at 1 2. rewrite (sum_ext n _ (fun j => sum m (fun a => A i j * V j a * power m T k e0 a))) by (intros; rewrite <- sum_scal_l; apply sum_ext; intros; ring).
      rewrite sum_swap. rewrite (sum_ext m _ (fun a => sum m (fun b => T b a * V i b) * power m T k e0 a)).
      + unfold mv. rewrite (sum_ext m (fun j => V i j * _) (fun b => sum m (fun a => T b a * V i b * power m T k e0 a))) by (intros; rewrite <- sum_scal_l; apply sum_ext; intros; ring).
        rewrite sum_swap. apply sum_ext. intros a Ha. rewrite <- sum_scal_r. apply sum_ext. intros. ring.
      + intros a Ha. rewrite sum_scal_r. destruct (le_lt_dec a k) as [L|L].
        * rewrite <- lanczos_relation by lia. reflexivity.
        * rewrite power_support by auto. ring.
  Qed.
  Lemma power_add : forall N B a b v, power N B (a + b) v = power N B a (power N B b v).
  Proof. induction a; intros; cbn; [reflexivity|]. rewrite IHa. reflexivity. Qed.
  Lemma power_adj : forall N B a u v, sym N B -> dot N u (power N B a v) = dot N (power N B a u) v.
  Proof.
    intros N B a. induction a; intros u v SB; cbn; [reflexivity|]. rewrite <- bf_dot, bf_sym, bf_dot by auto.
    rewrite dot_comm. change (mv N B u) with (power N B 1 u). rewrite IHa by auto. rewrite <- power_add, Nat.add_1_r. reflexivity.
  Qed.
  Lemma power_ext : forall N B a u v, veq N u v -> veq N (power N B a u) (power N B a v).
  Proof. induction a; intros u v H; cbn; auto. apply mv_ext; [apply meq_refl|]. auto. Qed.
  (** moments up to 2 m - 1 *)
  Lemma moments : forall k, (k <= 2 * m - 1)%nat -> dot n v1 (power n A k v1) = dot m e0 (power m T k e0).
  Proof.
    intros k Hk. destruct tri_sym as [TS _]. destruct k as [|k].
    - cbn. rewrite U. unfold dot, e0. rewrite sum_delta_l by auto. rewrite delta_same. reflexivity.
    - assert (exists a b, (k = a + b)%nat /\ (a < m)%nat /\ (b < m)%nat) as [a [b [-> [Ha Hb]]]].
      { exists (Nat.min k (m - 1)), (k - Nat.min k (m - 1))%nat. lia. }
      assert (G : forall N B v, sym N B -> dot N v (power N B (S (a + b)) v) = bf N B (power N B a v) (power N B b v)).
      { intros N B v SB. replace (S (a + b)) with (a + (S b))%nat by lia. rewrite power_add, power_adj by auto. cbn. rewrite bf_dot. reflexivity. }
      rewrite !G by auto.
      assert (X : bf n A (power n A a v1) (power n A b v1) = bf n A (mv m V (power m T a e0)) (mv m V (power m T b e0))).
      { rewrite !bf_dot. apply dot_ext; [intros i Hi; apply krylov; auto|]. apply mv_ext; [apply meq_refl|]. intros i Hi. apply krylov; auto. }
      rewrite X, bf_dot, dot_comm, dot_mv_tr, dot_comm. unfold bf.
      unfold dot. apply sum_ext. intros p Hp.
      rewrite (sum_ext m _ (fun q => power m T a e0 p * (mm n (tr V) (mm n A V) p q * power m T b e0 q))).
      2:{ intros q Hq. destruct (reduced p q Hp Hq) as [_ Y]. rewrite (Y NT). ring. }
      rewrite sum_scal_l. f_equal. unfold mv at 1. unfold tr at 1.
      rewrite (sum_ext n _ (fun i => sum m (fun q => V i p * (mm n A V i q * power m T b e0 q)))).
      2:{ intros i Hi. rewrite sum_scal_l. f_equal. change (mv n A (mv m V (power m T b e0)) i = mv m (mm n A V) (power m T b e0) i). symmetry. apply mv_mm. }
      rewrite sum_swap. apply sum_ext. intros q Hq. unfold mm, tr. rewrite <- sum_scal_r. apply sum_ext. intros. ring.
  Qed.
End Out.

(** ** spectral form *)
Lemma eigen_power : forall n A a P, eigen n A a P -> forall v k i, (i < n)%nat ->
  power n A k v i = sum n (fun l => P i l * (dot n (col P l) v * a l ^ k)).
Proof.
  intros n A a P [H1 [H2 H3]] v. induction k; intros i Hi.
  - cbn. rewrite (sum_ext n _ (fun l => sum n (fun j => P i l * P j l * v j))).
    2:{ intros l Hl. unfold dot, col. rewrite Rmult_1_r, <- sum_scal_l. apply sum_ext. intros. ring. }
    rewrite sum_swap. rewrite (sum_ext n _ (fun j => delta i j * v j)); [now rewrite sum_delta_l|].
    intros j Hj. rewrite sum_scal_r. f_equal. symmetry. exact (eq_sym (H1 i j Hi Hj)).
  - cbn [power]. rewrite (mv_ext n n A A _ (fun i => sum n (fun l => P i l * (dot n (col P l) v * a l ^ k))) (meq_refl _ _ _)); [|intros j Hj; apply IHk; auto|auto].
    unfold mv. rewrite (sum_ext n _ (fun j => sum n (fun l => A i j * P j l * (dot n (col P l) v * a l ^ k)))) by (intros; rewrite <- sum_scal_l; apply sum_ext; intros; ring).
    rewrite sum_swap. apply sum_ext. intros l Hl. rewrite sum_scal_r. fold (mm n A P i l). rewrite H3 by auto. cbn. ring.
Qed.
Lemma eigen_moment : forall n A a P, eigen n A a P -> forall v k, dot n v (power n A k v) = spectral n a P (fun x => x ^ k) v.
Proof.
  intros n A a P H v k. rewrite dot_comm. rewrite (dot_ext n _ v (fun i => sum n (fun l => (dot n (col P l) v * a l ^ k) * P i l)) v).
  - rewrite dot_sum_l. unfold spectral. apply sum_ext. intros l Hl. change (fun i => P i l) with (col P l). ring.
  - intros i Hi. rewrite (eigen_power n A a P H) by auto. apply sum_ext. intros. ring.
  - intros i _. reflexivity.
Qed.

(** ** interpolation *)
Definition peval (L : nat) (p : Vec) (x : R) : R := sum L (fun k => p k * x ^ k).
Lemma prod_poly : forall zs : list R, exists q : Vec, (forall x, In x zs -> peval (S (length zs)) q x = 0) /\
  (forall x, ~ In x zs -> peval (S (length zs)) q x <> 0).
Proof.
  induction zs as [|z zs [q [H1 H2]]].
  - exists (fun _ => 1). split; [intros x []|]. intros x _. unfold peval. cbn. lra.
  - set (L := S (length zs)) in *.
    set (qq := fun k => (match k with O => 0 | S k' => q k' end) - z * (if Nat.ltb k L then q k else 0)).
    assert (E : forall x, peval (S L) qq x = (x - z) * peval L q x).
    { intro x. unfold peval, qq. rewrite (sum_ext (S L) _ (fun k => (match k with O => 0 | S k' => q k' end) * x ^ k - z * ((if Nat.ltb k L then q k else 0) * x ^ k))) by (intros; ring).
      rewrite sum_minus, sum_scal_l. rewrite sum_S_l. rewrite Rmult_0_l, Rplus_0_l.
      rewrite (sum_ext L (fun i => q i * x ^ S i) (fun i => x * (q i * x ^ i))) by (intros; cbn; ring). rewrite sum_scal_l.
      cbn [sum]. rewrite Nat.ltb_irrefl. rewrite (sum_ext L (fun k => (if Nat.ltb k L then q k else 0) * x ^ k) (fun k => q k * x ^ k)); [ring|].
      intros k Hk. destruct (Nat.ltb_spec k L); [reflexivity|lia]. }
    exists qq. split; intros x Hx; cbn [length]; fold L; rewrite E.
    + destruct Hx as [->|Hx]; [ring|]. rewrite H1 by auto. ring.
    + apply Rmult_integral_contrapositive. split; [intro; apply Hx; left; lra|]. apply H2. intro. apply Hx. now right.
Qed.
Lemma peval_more : forall L K p x, (L <= K)%nat -> peval K (fun k => if Nat.ltb k L then p k else 0) x = peval L p x.
Proof.
  intros L K p x H. unfold peval. replace K with (L + (K - L))%nat by lia. rewrite sum_app. rewrite (sum_zero_ext (K - L)).
  - rewrite Rplus_0_r. apply sum_ext. intros k Hk. destruct (Nat.ltb_spec k L); [reflexivity|lia].
  - intros k Hk. destruct (Nat.ltb_spec (L + k) L); [lia|ring].
Qed.
Lemma interpolation : forall (f : R -> R) (zs : list R), exists p : Vec, forall x, In x zs -> peval (length zs) p x = f x.
Proof.
  intros f zs. induction zs as [|z zs [p H]]; [exists (fun _ => 0); intros x []|].
  set (L := length zs) in *. set (p' := fun k => if Nat.ltb k L then p k else 0).
  assert (E : forall x, peval (S L) p' x = peval L p x) by (intro; apply peval_more; lia).
  destruct (In_dec Req_EM_T z zs) as [I|I].
  - exists p'. intros x [<-|Hx]; cbn [length]; fold L; rewrite E; apply H; auto.
  - destruct (prod_poly zs) as [q [Q1 Q2]]. fold L in Q1, Q2. set (t := (f z - peval L p z) / peval (S L) q z).
    exists (fun k => p' k + t * q k).
    assert (X : forall x, peval (S L) (fun k => p' k + t * q k) x = peval L p x + t * peval (S L) q x).
    { intro x. rewrite <- E. unfold peval. rewrite <- sum_scal_l, <- sum_plus. apply sum_ext. intros. ring. }
    intros x [<-|Hx]; cbn [length]; fold L; rewrite X.
    + unfold t. field. apply Q2. auto.
    + rewrite Q1 by auto. rewrite H by auto. ring.
Qed.
(** two weighted sums with equal moments *)
Lemma same_moments : forall N M (w x : Vec) (u y : Vec) L (zs : list R) f,
  (forall k, (k < L)%nat -> sum N (fun i => w i * x i ^ k) = sum M (fun i => u i * y i ^ k)) ->
  length zs = L -> (forall i, (i < N)%nat -> In (x i) zs) -> (forall i, (i < M)%nat -> In (y i) zs) ->
  sum N (fun i => w i * f (x i)) = sum M (fun i => u i * f (y i)).
Proof.
  intros N M w x u y L zs f H EL I1 I2. destruct (interpolation f zs) as [p P]. rewrite EL in P.
  assert (G : forall Q (a b : Vec), (forall i, (i < Q)%nat -> In (b i) zs) -> sum Q (fun i => a i * f (b i)) = sum L (fun k => p k * sum Q (fun i => a i * b i ^ k))).
  { intros Q a b I. rewrite (sum_ext Q _ (fun i => sum L (fun k => p k * (a i * b i ^ k)))).
    - rewrite sum_swap. apply sum_ext. intros. apply sum_scal_l.
    - intros i Hi. rewrite <- P by auto. unfold peval. rewrite <- sum_scal_l. apply sum_ext. intros. ring. }
  rewrite !G by auto. apply sum_ext. intros k Hk. now rewrite H.
Qed.
Fixpoint values (n : nat) (x : Vec) : list R := match n with O => nil | S k => cons (x k) (values k x) end.
Lemma values_length : forall n x, length (values n x) = n.
Proof. induction n; intros; cbn; auto. Qed.
Lemma values_in : forall n x i, (i < n)%nat -> In (x i) (values n x).
Proof. induction n; intros x i H; [lia|]. destruct (Nat.eq_dec i n) as [->|D]; [now left|right; apply IHn; lia]. Qed.

Section Quadrature.
  Context (n m : nat) (A : Mat) (matvec : Vec -> Vec) (v1 : Vec) (draw : nat -> Vec) (T V : Mat) (lam : Vec) (Q : Mat).
  Hypothesis Asym : sym n A.
  Hypothesis MV : forall z i, (i < n)%nat -> matvec z i = mv n A z i.
  Hypothesis U : dot n v1 v1 = 1.
  Hypothesis Hm : (0 < m)%nat.
  Hypothesis E : lanczos_tridiagonal matvec m n v1 draw = (T, V).
  Hypothesis R : restarts_ok n m T V draw.
  Hypothesis NT : no_tiny m T.
  Hypothesis EG : eigen m T lam Q.
  Lemma spectral_e0 : forall f, spectral m lam Q f e0 = sum m (fun i => Q 0%nat i ^ 2 * f (lam i)).
  Proof. intro f. unfold spectral. apply sum_ext. intros k Hk. unfold dot, e0. rewrite sum_delta_r by auto. reflexivity. Qed.
  Lemma quad_moment : forall k, (k <= 2 * m - 1)%nat -> sum m (fun i => Q 0%nat i ^ 2 * lam i ^ k) = dot n v1 (power n A k v1).
  Proof.
    intros k Hk. rewrite (moments n m A matvec v1 draw T V) by auto. rewrite (eigen_moment m T lam Q EG). rewrite spectral_e0. reflexivity.
  Qed.
  Lemma quad_exact : forall a P f d, eigen n A a P -> at_most d n a -> (d <= m)%nat ->
    sum m (fun i => Q 0%nat i ^ 2 * f (lam i)) = spectral n a P f v1.
  Proof.
    intros a P f d EA [zs [Lz Iz]] Hd. unfold spectral.
    apply (same_moments m n (fun i => Q 0%nat i ^ 2) lam (fun k => dot n (fun i => P i k) v1 ^ 2) a (d + m) (zs ++ values m lam) f).
    - intros k Hk. rewrite quad_moment by lia. rewrite (eigen_moment n A a P EA). reflexivity.
    - rewrite app_length, values_length. lia.
    - intros i Hi. apply in_or_app. right. now apply values_in.
    - intros i Hi. apply in_or_app. left. auto.
  Qed.
  (** Ritz values stay above a lower bound of A *)
  Lemma ritz_lower : forall lo, (forall v, lo * dot n v v <= qf n A v) -> forall i, (i < m)%nat -> lo <= lam i.
  Proof.
    intros lo H i Hi. destruct EG as [G1 [G2 G3]]. specialize (H (mv m V (col Q i))).
    assert (D : dot n (mv m V (col Q i)) (mv m V (col Q i)) = 1).
    { rewrite dot_mv_tr. rewrite (dot_ext m _ (col Q i) (col Q i) (col Q i)); [|intros p Hp|intros p _; reflexivity].
      - exact (eq_trans (G2 i i Hi Hi) (delta_same i)).
      - rewrite <- mv_mm. unfold mv. rewrite (sum_ext m _ (fun q => delta p q * col Q i q)); [now rewrite sum_delta_l|].
        intros q Hq. f_equal. exact (orthonormal n m A matvec v1 draw T V MV U Hm E R p q Hp Hq). }
    assert (F : qf n A (mv m V (col Q i)) = lam i).
    { rewrite qf_dot, dot_comm, dot_mv_tr, dot_comm. 
      rewrite (dot_ext m (col Q i) _ (col Q i) (fun p => lam i * col Q i p)); [|intros p _; reflexivity|intros p Hp].
      - rewrite dot_comm, dot_scal_l. transitivity (lam i * 1); [f_equal; exact (eq_trans (G2 i i Hi Hi) (delta_same i))|ring].
      - unfold mv at 1. transitivity (sum m (fun q => mm n (tr V) (mm n A V) p q * col Q i q)).
        + transitivity (mv m (mm n (tr V) (mm n A V)) (col Q i) p); [|reflexivity]. rewrite mv_mm. unfold mv at 2. apply sum_ext. intros k Hk. f_equal. symmetry. apply mv_mm.
        + rewrite (sum_ext m _ (fun q => T p q * Q q i)).
          * transitivity (Q p i * lam i); [exact (G3 p i Hp Hi)|unfold col; ring].
          * intros q Hq. f_equal. destruct (reduced n m A matvec v1 draw T V Asym MV U Hm E R p q Hp Hq) as [_ Y]. auto. }
    rewrite D, F in H. lra.
  Qed.
End Quadrature.
