(** The stochastic estimate of the log-determinant. *)
From Coq Require Import Reals Arith Lia Lra List FunctionalExtensionality.
From Verif Require Import Base.Sums Base.Mat Base.PSD Model.Arrays Model.Lanczos Spec.LanczosSpec Spec.Det Proofs.DetFacts Proofs.LanczosFacts Proofs.LanczosQuad.
Open Scope R_scope.

(** ** averages over signs *)
Lemma sign_mean_ext : forall n F G, (forall s, is_sign n s -> F s = G s) -> sign_mean n F = sign_mean n G.
Proof.
  induction n; intros F G H; cbn; [apply H; intros i Hi; lia|].
  rewrite (IHn (fun s => F (upd s n 1)) (fun s => G (upd s n 1))), (IHn (fun s => F (upd s n (-1))) (fun s => G (upd s n (-1)))); [reflexivity| |];
    intros s Hs; apply H; intros i Hi; unfold upd; destruct (Nat.eqb_spec i n); auto; apply Hs; lia.
Qed.
Lemma sign_mean_plus : forall n F G, sign_mean n (fun s => F s + G s) = sign_mean n F + sign_mean n G.
Proof. induction n; intros; cbn; [reflexivity|]. rewrite !IHn. lra. Qed.
Lemma sign_mean_scal : forall n c F, sign_mean n (fun s => c * F s) = c * sign_mean n F.
Proof. induction n; intros; cbn; [reflexivity|]. rewrite !IHn. lra. Qed.
Lemma sign_mean_const : forall n c, sign_mean n (fun _ => c) = c.
Proof. induction n; intros; cbn; [reflexivity|]. rewrite !IHn. lra. Qed.
Lemma sign_mean_sum : forall n p (F : nat -> Vec -> R), sign_mean n (fun s => sum p (fun i => F i s)) = sum p (fun i => sign_mean n (F i)).
Proof. intros n p F. induction p; cbn; [apply sign_mean_const|]. rewrite sign_mean_plus, IHp. reflexivity. Qed.
Lemma sign_mean_one : forall n j c, (j < n)%nat -> sign_mean n (fun s => c * s j) = 0.
Proof.
  induction n; intros j c H; [lia|]. cbn. destruct (Nat.eq_dec j n) as [->|D].
  - rewrite (sign_mean_ext n _ (fun _ => c)) by (intros; rewrite upd_same; ring). rewrite (sign_mean_ext n (fun s => c * upd s n (-1) n) (fun _ => - c)) by (intros; rewrite upd_same; ring).
    rewrite !sign_mean_const. lra.
  - rewrite (sign_mean_ext n _ (fun s => c * s j)) by (intros; rewrite upd_other by auto; reflexivity).
    rewrite (sign_mean_ext n (fun s => c * upd s n (-1) j) (fun s => c * s j)) by (intros; rewrite upd_other by auto; reflexivity). rewrite IHn by lia. lra.
Qed.
Lemma sign_mean_two : forall n i j, (i < n)%nat -> (j < n)%nat -> sign_mean n (fun s => s i * s j) = delta i j.
Proof.
  induction n; intros i j Hi Hj; [lia|]. cbn. destruct (Nat.eq_dec i n) as [->|Di]; destruct (Nat.eq_dec j n) as [->|Dj].
  - rewrite (sign_mean_ext n (fun s => upd s n 1 n * upd s n 1 n) (fun _ => 1)) by (intros; rewrite !upd_same; ring).
    rewrite (sign_mean_ext n (fun s => upd s n (-1) n * upd s n (-1) n) (fun _ => 1)) by (intros; rewrite !upd_same; ring). rewrite sign_mean_const, delta_same. lra.
  - rewrite (sign_mean_ext n _ (fun s => 1 * s j)) by (intros; rewrite upd_same, upd_other by auto; reflexivity).
    rewrite (sign_mean_ext n (fun s => upd s n (-1) n * upd s n (-1) j) (fun s => -1 * s j)) by (intros; rewrite upd_same, upd_other by auto; reflexivity).
    rewrite !sign_mean_one by lia. rewrite delta_diff by auto. lra.
  - rewrite (sign_mean_ext n _ (fun s => 1 * s i)) by (intros; rewrite upd_same, upd_other by auto; ring).
    rewrite (sign_mean_ext n (fun s => upd s n (-1) i * upd s n (-1) n) (fun s => -1 * s i)) by (intros; rewrite upd_same, upd_other by auto; ring).
    rewrite !sign_mean_one by lia. rewrite delta_diff by auto. lra.
  - rewrite (sign_mean_ext n _ (fun s => s i * s j)) by (intros; rewrite !upd_other by auto; reflexivity).
    rewrite (sign_mean_ext n (fun s => upd s n (-1) i * upd s n (-1) j) (fun s => s i * s j)) by (intros; rewrite !upd_other by auto; reflexivity). rewrite IHn by lia. lra.
Qed.
Lemma sign_mean_square : forall n c, sign_mean n (fun s => dot n c s ^ 2) = dot n c c.
Proof.
  intros n c. rewrite (sign_mean_ext n _ (fun s => sum n (fun i => sum n (fun j => c i * c j * (s i * s j))))).
  2:{ intros s _. unfold dot. cbn [pow]. rewrite Rmult_1_r, sum_mult. apply sum_ext. intros i _. apply sum_ext. intros. ring. }
  rewrite sign_mean_sum. unfold dot. apply sum_ext. intros i Hi. rewrite sign_mean_sum.
  rewrite (sum_ext n _ (fun j => delta i j * (c i * c j))); [now rewrite sum_delta_l|]. intros j Hj. rewrite sign_mean_scal, sign_mean_two by auto. ring.
Qed.
Lemma spectral_mean : forall n A a P f, eigen n A a P -> sign_mean n (spectral n a P f) = sum n (fun k => f (a k)).
Proof.
  intros n A a P f [_ [H _]]. unfold spectral. rewrite sign_mean_sum. apply sum_ext. intros k Hk.
  rewrite (sign_mean_ext n _ (fun s => f (a k) * dot n (fun i => P i k) s ^ 2)) by (intros; ring). rewrite sign_mean_scal, sign_mean_square.
  replace (dot n (fun i => P i k) (fun i => P i k)) with 1; [ring|]. rewrite <- (delta_same k). symmetry. exact (H k k Hk Hk).
Qed.

(** ** averages over probes *)
Lemma probe_mean_ext : forall p n F G, (forall M, (forall b, (b < p)%nat -> is_sign n (fun i => M i b)) -> F M = G M) -> probe_mean p n F = probe_mean p n G.
Proof.
  induction p; intros n F G H; cbn; [apply H; lia|]. apply IHp. intros M HM. apply sign_mean_ext. intros s Hs. apply H. intros b Hb.
  destruct (Nat.eqb_spec b p) as [->|D]; [exact Hs|]. apply HM. lia.
Qed.
Lemma probe_mean_scal : forall p n c F, probe_mean p n (fun M => c * F M) = c * probe_mean p n F.
Proof.
  induction p; intros; cbn; [reflexivity|]. rewrite <- IHp. apply probe_mean_ext. intros. apply sign_mean_scal.
Qed.
Lemma probe_mean_plus : forall p n F G, probe_mean p n (fun M => F M + G M) = probe_mean p n F + probe_mean p n G.
Proof.
  induction p; intros; cbn; [reflexivity|]. rewrite <- IHp. apply probe_mean_ext. intros. apply sign_mean_plus.
Qed.
Lemma probe_mean_const : forall p n c, probe_mean p n (fun _ => c) = c.
Proof. induction p; intros; cbn; [reflexivity|]. transitivity (probe_mean p n (fun _ => c)); [|apply IHp]. apply probe_mean_ext. intros. apply sign_mean_const. Qed.
Lemma probe_mean_sum : forall p n q (F : nat -> Mat -> R), probe_mean p n (fun M => sum q (fun i => F i M)) = sum q (fun i => probe_mean p n (F i)).
Proof. intros p n q F. induction q; cbn; [apply probe_mean_const|]. rewrite probe_mean_plus, IHq. reflexivity. Qed.
Lemma probe_mean_col : forall p n b F, (b < p)%nat -> probe_mean p n (fun M => F (fun i => M i b)) = sign_mean n F.
Proof.
  induction p; intros n b F H; [lia|]. cbn. destruct (Nat.eq_dec b p) as [->|D].
  - rewrite Nat.eqb_refl. rewrite probe_mean_const. apply sign_mean_ext. reflexivity.
  - destruct (Nat.eqb_spec b p); [contradiction|]. rewrite <- (IHp n b F) by lia. apply probe_mean_ext. intros M _. apply sign_mean_const.
Qed.

(** ** the estimate *)
Lemma eigen_qf : forall n A a P v, eigen n A a P -> qf n A v = spectral n a P (fun x => x) v.
Proof.
  intros n A a P v H. rewrite qf_dot. change (mv n A v) with (power n A 1 v). rewrite (eigen_moment n A a P H). unfold spectral. apply sum_ext. intros. f_equal. ring.
Qed.
Lemma eigen_lower : forall n A a P lo, eigen n A a P -> (forall k, (k < n)%nat -> lo <= a k) -> forall v, lo * dot n v v <= qf n A v.
Proof.
  intros n A a P lo H L v. rewrite (eigen_qf n A a P v H). change (dot n v v) with (dot n v (power n A 0 v)). rewrite (eigen_moment n A a P H). unfold spectral.
  rewrite <- sum_scal_l. apply sum_le. intros k Hk. pose proof (pow2_ge_0 (dot n (fun i => P i k) v)). specialize (L k Hk). cbn [pow] in *. nra.
Qed.
Lemma fori_sum : forall p (f : nat -> R) (acc : R), fori p (fun b l => l + f b) acc = acc + sum p f.
Proof. induction p; intros; cbn; [lra|]. rewrite IHp. lra. Qed.
Lemma sign_norm : forall n s, is_sign n s -> vnorm n s = sqrt (INR n).
Proof.
  intros n s H. unfold vnorm. f_equal. unfold dot. rewrite (sum_ext n _ (fun _ => 1)); [rewrite sum_const; ring|]. intros i Hi. destruct (H i Hi) as [-> | ->]; ring.
Qed.
Lemma eigen_sym : forall n A a P, eigen n A a P -> sym n A.
Proof.
  intros n A a P [H1 [H2 H3]].
  assert (X : forall i j, (i < n)%nat -> (j < n)%nat -> A i j = sum n (fun k => P i k * a k * P j k)).
  { intros i j Hi Hj. transitivity (sum n (fun l => A i l * delta l j)); [now rewrite sum_delta_r'|].
    rewrite (sum_ext n _ (fun l => sum n (fun k => A i l * P l k * P j k))).
    - rewrite sum_swap. apply sum_ext. intros k Hk. rewrite sum_scal_r. f_equal. exact (H3 i k Hi Hk).
    - intros l Hl. transitivity (A i l * sum n (fun k => P l k * P j k)); [f_equal; symmetry; exact (H1 l j Hl Hj)|]. rewrite <- sum_scal_l. apply sum_ext. intros. ring. }
  intros i j Hi Hj. rewrite !X by auto. apply sum_ext. intros. ring.
Qed.
Section Estimate.
  Context (n m : nat) (A : Mat) (matvec : Vec -> Vec) (draw : nat -> Vec) (eigh : nat -> Mat -> Vec * Mat) (a : Vec) (P : Mat) (d : nat).
  Hypothesis MV : forall z i, (i < n)%nat -> matvec z i = mv n A z i.
  Hypothesis Hn : (0 < n)%nat.
  Hypothesis Hm : (0 < m)%nat.
  Hypothesis EA : eigen n A a P.
  Hypothesis LO : forall k, (k < n)%nat -> / 10 ^ 36 <= a k.
  Hypothesis D : at_most d n a.
  Hypothesis Hd : (d <= m)%nat.
  Lemma sqrt_n : sqrt (INR n) <> 0.
  Proof. apply Rgt_not_eq, sqrt_lt_R0, lt_0_INR. auto. Qed.
  Lemma spectral_scal : forall f t v, spectral n a P f (fun i => v i / t) = spectral n a P f v / t ^ 2.
  Proof.
    intros f t v. unfold spectral. unfold Rdiv at 2. rewrite <- sum_scal_r. apply sum_ext. intros k _.
    replace (dot n (fun i => P i k) (fun i => v i / t)) with (dot n (fun i => P i k) v * / t); [rewrite Rpow_mult_distr, pow_inv; ring|].
    unfold dot. rewrite <- sum_scal_r. apply sum_ext. intros. unfold Rdiv. ring.
  Qed.
  Lemma one_probe : forall s, is_sign n s -> probe_ok n m matvec draw eigh s ->
    let T := fst (lanczos_tridiagonal matvec m n (fun i => s i / sqrt (INR n)) draw) in
    sum m (fun i => snd (eigh m T) 0%nat i ^ 2 * ln (Rmax (fst (eigh m T) i) (/ 10 ^ 36))) = spectral n a P ln s / INR n.
  Proof.
    intros s Hs OK. cbv zeta. unfold probe_ok in OK. cbv zeta in OK. set (v1 := fun i => s i / sqrt (INR n)) in *.
    destruct (lanczos_tridiagonal matvec m n v1 draw) as [T V] eqn:E. cbn [fst snd] in *. destruct OK as [R [NT EG]].
    assert (U : dot n v1 v1 = 1).
    { unfold v1. apply vnorm_div; [symmetry; now apply sign_norm|apply sqrt_n]. }
    assert (S := eigen_sym n A a P EA).
    assert (RL := ritz_lower n m A matvec v1 draw T V (fst (eigh m T)) (snd (eigh m T)) S MV U Hm E R NT EG (/ 10 ^ 36) (eigen_lower n A a P _ EA LO)).
    rewrite (sum_ext m _ (fun i => snd (eigh m T) 0%nat i ^ 2 * ln (fst (eigh m T) i))).
    2:{ intros i Hi. rewrite Rmax_left; [reflexivity|]. now apply RL. }
    rewrite (quad_exact n m A matvec v1 draw T V _ _ S MV U Hm E R NT EG a P ln d EA D Hd).
    unfold v1. rewrite spectral_scal. rewrite pow2_sqrt by apply pos_INR. reflexivity.
  Qed.
  Lemma logdet_value : forall ne signs, (0 < ne)%nat -> (forall p, (p < ne)%nat -> is_sign n (fun i => signs i p)) ->
    (forall p, (p < ne)%nat -> probe_ok n m matvec draw eigh (fun i => signs i p)) ->
    lanczos_logdet eigh matvec ne n m signs draw = / INR ne * sum ne (fun p => spectral n a P ln (fun i => signs i p)).
  Proof.
    intros ne signs Hne HS HP. 
    pose (g := (fun p => let T := fst (lanczos_tridiagonal matvec m n (col (fun i p0 => signs i p0 / vnorm n (col signs p0)) p) draw) in
       sum m (fun i => snd (eigh m T) 0%nat i ^ 2 * ln (Rmax (fst (eigh m T) i) (/ 10 ^ 36))))).
    change (INR n / INR ne * fori ne (fun b l => l + g b) 0 = / INR ne * sum ne (fun p => spectral n a P ln (fun i => signs i p))).
    rewrite fori_sum, Rplus_0_l. unfold g. rewrite (sum_ext ne _ (fun p => spectral n a P ln (fun i => signs i p) / INR n)).
    - rewrite sum_div. assert (INR n <> 0) by (apply not_0_INR; lia). assert (INR ne <> 0) by (apply not_0_INR; lia). field. auto.
    - intros p Hp. rewrite <- (one_probe _ (HS p Hp) (HP p Hp)). cbv zeta.
      replace (col (fun i p0 => signs i p0 / vnorm n (col signs p0)) p) with (fun i => signs i p / sqrt (INR n)); [reflexivity|].
      apply functional_extensionality. intro i. unfold col at 1. f_equal. symmetry. apply (sign_norm n (fun i => signs i p)). auto.
  Qed.
  Lemma det_eigen : det n A = prodR n a.
  Proof.
    destruct EA as [H1 [H2 H3]]. assert (X : det n P * det n P = 1).
    { rewrite <- (det_tr' n P) at 2. rewrite <- det_mm. rewrite (det_ext (B := eye) H1). apply det_eye. }
    assert (Y : det n A * det n P = det n P * prodR n a).
    { rewrite <- det_mm. rewrite (det_ext (B := mm n P (fun i j => if Nat.eqb i j then a i else 0))).
      - rewrite det_mm. f_equal. rewrite det_lower; [|intros i j _ L; destruct (Nat.eqb_spec i j); [lia|reflexivity]].
        clear. induction n; cbn; [reflexivity|]. rewrite IHn0, Nat.eqb_refl. reflexivity.
      - intros i k Hi Hk. rewrite (H3 i k Hi Hk). unfold mm. rewrite (sum_ext n _ (fun l => P i l * a l * delta l k)); [now rewrite sum_delta_r'|].
        intros l _. unfold delta. destruct (Nat.eqb l k); ring. }
    assert (det n P <> 0) by (intro Z; rewrite Z in X; lra). apply (Rmult_eq_reg_r (det n P)); auto. lra.
  Qed.
  Lemma logdet_unbiased : forall ne, (0 < ne)%nat -> (forall s, is_sign n s -> probe_ok n m matvec draw eigh s) ->
    probe_mean ne n (fun signs => lanczos_logdet eigh matvec ne n m signs draw) = ln (det n A).
  Proof.
    intros ne Hne HP. rewrite (probe_mean_ext ne n _ (fun signs => / INR ne * sum ne (fun p => spectral n a P ln (fun i => signs i p)))).
    2:{ intros M HM. apply logdet_value; auto. }
    rewrite probe_mean_scal, probe_mean_sum. rewrite (sum_ext ne _ (fun _ => sum n (fun k => ln (a k)))).
    - rewrite sum_const. rewrite det_eigen, ln_prod.
      + field. apply not_0_INR. lia.
      + intros i Hi. apply (Rlt_le_trans _ (/ 10 ^ 36)); [apply Rinv_0_lt_compat, pow_lt; lra|]. apply LO. auto.
    - intros p Hp. rewrite (probe_mean_col ne n p (spectral n a P ln)) by auto. exact (spectral_mean n A a P ln EA).
  Qed.
End Estimate.
Lemma eigen_scalar : forall n s, eigen n (fun i j => s * delta i j) (fun _ => s) eye.
Proof.
  intros n s. split; [|split]; intros i j Hi Hj; unfold mm, tr, eye.
  - rewrite sum_delta_l by auto. apply delta_sym.
  - rewrite sum_delta_l' by auto. reflexivity.
  - rewrite sum_delta_r' by auto. ring.
Qed.
Lemma spectral_eye : forall n s f v, is_sign n v -> spectral n (fun _ => s) eye f v = INR n * f s.
Proof.
  intros n s f v H. unfold spectral. rewrite (sum_ext n _ (fun _ => f s)); [apply sum_const|]. intros k Hk. unfold dot, eye. rewrite sum_delta_l' by auto.
  destruct (H k Hk) as [-> | ->]; ring.
Qed.
Lemma logdet_scalar : forall n m matvec draw eigh s ne signs, (0 < n)%nat -> (0 < m)%nat -> (0 < ne)%nat -> / 10 ^ 36 <= s ->
  (forall z i, (i < n)%nat -> matvec z i = s * z i) ->
  (forall p, (p < ne)%nat -> is_sign n (fun i => signs i p)) -> (forall p, (p < ne)%nat -> probe_ok n m matvec draw eigh (fun i => signs i p)) ->
  lanczos_logdet eigh matvec ne n m signs draw = INR n * ln s.
Proof.
  intros n m matvec draw eigh s ne signs Hn Hm Hne LO MV HS HP.
  rewrite (logdet_value n m (fun i j => s * delta i j) matvec draw eigh (fun _ => s) eye 1).
  - rewrite (sum_ext ne _ (fun _ => INR n * ln s)) by (intros; apply spectral_eye; auto). rewrite sum_const. field. apply not_0_INR. lia.
  - intros z i Hi. rewrite MV by auto. unfold mv. rewrite (sum_ext n _ (fun j => delta i j * (s * z j))) by (intros; ring). now rewrite sum_delta_l.
  - auto.
  - auto.
  - apply eigen_scalar.
  - auto.
  - exists (cons s nil). split; [reflexivity|]. intros; now left.
  - lia.
  - auto.
  - auto.
  - auto.
Qed.
