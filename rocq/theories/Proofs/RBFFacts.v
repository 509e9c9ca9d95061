(** Facts about Model/RBFNet.v. *)
From Coq Require Import Reals Arith Lia Lra List.
From Verif Require Import Base.Sums Base.Mat Base.PSD Model.Arrays Model.Kernels Model.Operations Model.KernelOps Model.RBFNet
  Spec.KernelSpec Proofs.KernelDerivs Proofs.KernelSym Proofs.SGPRExamples.
Open Scope R_scope.

Lemma bcast_same : forall a, bcast a a = Some a.
Proof. intro. unfold bcast. now rewrite Nat.eqb_refl. Qed.
Lemma bix_lt : forall a i, (i < a)%nat -> bix a i = i.
Proof. intros a i H. unfold bix. destruct (Nat.eqb_spec a 1); lia. Qed.
Lemma bcast_none : forall a b, bcast a b = None <-> a <> b /\ a <> 1%nat /\ b <> 1%nat.
Proof.
  intros. unfold bcast. destruct (Nat.eqb_spec a b), (Nat.eqb_spec a 1), (Nat.eqb_spec b 1); split; intro H;
    try discriminate; try (now elim H); auto; destruct H as [? [? ?]]; congruence.
Qed.
Lemma einsum_same : forall m g w, exists p, einsum_ij_io m m g w = Some p /\
  forall j o, p j o = sum m (fun i => g i j * w i o).
Proof.
  intros. unfold einsum_ij_io. rewrite bcast_same. eexists. split; [reflexivity|]. intros. apply sum_ext. intros i Hi.
  now rewrite !bix_lt.
Qed.
Lemma center_same : forall m k v, exists g, kernel_center_b m k m v = Some (m, g) /\
  forall i j, (i < m)%nat -> g i j = kernel_center m k v i j.
Proof.
  intros. unfold kernel_center_b. rewrite bcast_same. eexists. split; [reflexivity|]. intros i j Hi. cbv beta. rewrite !bix_lt by auto. reflexivity.
Qed.

(** without centring *)
Lemma rbf_plain : forall nf m n k z w x km, exists p, predict_linear nf m n k z w x false km = Some (p, km) /\
  forall j o, p j o = sum m (fun i => kernel_at nf k (z i) (x j) * w i o).
Proof.
  intros. unfold predict_linear. destruct (einsum_same m (kk nf k z x) w) as [p [-> Hp]]. exists p. split; [reflexivity|].
  intros. rewrite Hp. apply sum_ext. intros. now rewrite kk_at.
Qed.
(** with a mean of the right length *)
Lemma rbf_centered : forall nf m n k z w x v, exists p, predict_linear nf m n k z w x true (Some (m, v)) = Some (p, Some (m, v)) /\
  forall j o, p j o = sum m (fun i => (kernel_at nf k (z i) (x j) - / INR m * sum m (fun l => kernel_at nf k (z l) (x j))
    - (v i - / INR m * sum m v)) * w i o).
Proof.
  intros. unfold predict_linear. cbv zeta. cbn [fst snd]. destruct (center_same m (kk nf k z x) v) as [g [-> Hg]].
  destruct (einsum_same m g w) as [p [-> Hp]]. exists p. split; [reflexivity|]. intros. rewrite Hp. apply sum_ext. intros i Hi.
  rewrite Hg by auto. f_equal. unfold kernel_center, mean0, vmean. rewrite kk_at.
  rewrite (sum_ext m (fun i => kk nf k z x i j) (fun l => kernel_at nf k (z l) (x j))) by (intros; apply kk_at).
  unfold Rdiv. ring.
Qed.
(** fitting leaves the mean of the training gram, of length the number of training points *)
Lemma rbf_training : forall nf m k z w x, exists p v, predict_linear nf m m k z w x true None = Some (p, Some (m, v)) /\
  (forall l, v l = / INR m * sum m (fun i => kernel_at nf k (z i) (x l))) /\
  predict_linear nf m m k z w x true (Some (m, v)) = Some (p, Some (m, v)).
Proof.
  intros. unfold predict_linear. cbv zeta. cbn [fst snd]. destruct (center_same m (kk nf k z x) (mean0 m (kk nf k z x))) as [g [Hg _]].
  rewrite Hg. destruct (einsum_same m g w) as [p [Hp _]]. rewrite Hp. exists p, (mean0 m (kk nf k z x)). split; [reflexivity|].
  split; [|now rewrite Hg, Hp]. intro l. unfold mean0, Rdiv. rewrite Rmult_comm. f_equal. apply sum_ext. intros. apply kk_at.
Qed.
(** when does a call raise *)
Lemma predict_linear_raises : forall nf m n k z w x center km, predict_linear nf m n k z w x center km = None <->
  center = true /\ let l := match km with None => n | Some q => fst q end in m <> l /\ m <> 1%nat /\ l <> 1%nat.
Proof.
  intros nf m n k z w x center km. unfold predict_linear. destruct center.
  2:{ destruct (einsum_same m (kk nf k z x) w) as [p [-> _]]. split; [discriminate|intros [H _]; discriminate]. }
  set (q := match km with None => (n, mean0 m (kk nf k z x)) | Some q => q end).
  replace (match km with None => n | Some q => fst q end) with (fst q) by (unfold q; now destruct km).
  cbv zeta. unfold kernel_center_b. rewrite <- bcast_none. destruct (bcast m (fst q)) as [r|] eqn:Br.
  - split; [|intros [_ H]; discriminate]. unfold einsum_ij_io.
    assert (NB : bcast r m <> None).
    { rewrite bcast_none. unfold bcast in Br. destruct (Nat.eqb_spec m (fst q)), (Nat.eqb_spec m 1), (Nat.eqb_spec (fst q) 1);
        try discriminate; injection Br as <-; lia. }
    destruct (bcast r m); [discriminate|now elim NB].
  - split; auto.
Qed.
(** linearity in the weights, whatever the shapes *)
Lemma rbf_linear : forall nf m n k z w1 w2 c x center km p1 p2 q1 q2,
  predict_linear nf m n k z w1 x center km = Some (p1, q1) -> predict_linear nf m n k z w2 x center km = Some (p2, q2) ->
  exists p, predict_linear nf m n k z (fun i o => w1 i o + c * w2 i o) x center km = Some (p, q1) /\
  forall j o, p j o = p1 j o + c * p2 j o.
Proof.
  intros nf m n k z w1 w2 c x center km p1 p2 q1 q2. unfold predict_linear.
  assert (EL : forall r g a b, einsum_ij_io r m g w1 = Some a -> einsum_ij_io r m g w2 = Some b ->
    exists p, einsum_ij_io r m g (fun i o => w1 i o + c * w2 i o) = Some p /\ forall j o, p j o = a j o + c * b j o).
  { intros r g a b. unfold einsum_ij_io. destruct (bcast r m); [|discriminate]. intros Ha Hb. injection Ha as <-. injection Hb as <-.
    eexists. split; [reflexivity|]. intros. rewrite <- sum_scal_l, <- sum_plus. apply sum_ext. intros. ring. }
  destruct center.
  - destruct (kernel_center_b _ _ _ _) as [[r g]|]; [|discriminate].
    destruct (einsum_ij_io r m g w1) as [a|] eqn:Ha; [|discriminate]. destruct (einsum_ij_io r m g w2) as [b|] eqn:Hb; [|discriminate].
    destruct (EL r g a b Ha Hb) as [p [-> Hp]]. intros H1 H2. injection H1 as <- <-. injection H2 as <- <-. eauto.
  - destruct (einsum_ij_io m m (kk nf k z x) w1) as [a|] eqn:Ha; [|discriminate].
    destruct (einsum_ij_io m m (kk nf k z x) w2) as [b|] eqn:Hb; [|discriminate].
    destruct (EL m _ a b Ha Hb) as [p [-> Hp]]. intros H1 H2. injection H1 as <- <-. injection H2 as <- <-. eauto.
Qed.
Lemma centred_zero : forall m f, (0 < m)%nat -> sum m (fun i => f i - / INR m * sum m f) = 0.
Proof.
  intros m f Hm. rewrite sum_minus, sum_const. assert (INR m <> 0) by (apply not_0_INR; lia).
  change (sum m (fun i => f i)) with (sum m f). field. auto.
Qed.
(** adding a constant to the weights of an output changes nothing when the kernel is centred *)
Lemma rbf_shift : forall nf m n k z w (b : Vec) x v, (0 < m)%nat -> exists p p',
  predict_linear nf m n k z w x true (Some (m, v)) = Some (p, Some (m, v)) /\
  predict_linear nf m n k z (fun i o => w i o + b o) x true (Some (m, v)) = Some (p', Some (m, v)) /\
  forall j o, p j o = p' j o.
Proof.
  intros nf m n k z w b x v Hm. destruct (rbf_centered nf m n k z w x v) as [p [Hp Ep]].
  destruct (rbf_centered nf m n k z (fun i o => w i o + b o) x v) as [p' [Hp' Ep']].
  exists p, p'. repeat split; auto. intros. rewrite Ep, Ep'.
  rewrite (sum_ext m (fun i => _ * (w i o + b o)) (fun i =>
     (kernel_at nf k (z i) (x j) - / INR m * sum m (fun l => kernel_at nf k (z l) (x j)) - (v i - / INR m * sum m v)) * w i o
     + (kernel_at nf k (z i) (x j) - / INR m * sum m (fun l => kernel_at nf k (z l) (x j)) - (v i - / INR m * sum m v)) * b o))
    by (intros; ring).
  rewrite sum_plus, (sum_scal_r m (b o)), sum_minus.
  rewrite (centred_zero m (fun l => kernel_at nf k (z l) (x j)) Hm), (centred_zero m v Hm). ring.
Qed.
(** every predicted row depends on its own point only *)
Lemma rbf_pointwise : forall nf m n n' k z w x x' center v j j', x j = x' j' -> exists p p',
  predict_linear nf m n k z w x center (Some (m, v)) = Some (p, Some (m, v)) /\
  predict_linear nf m n' k z w x' center (Some (m, v)) = Some (p', Some (m, v)) /\ forall o, p j o = p' j' o.
Proof.
  intros nf m n n' k z w x x' center v j j' E. destruct center.
  - destruct (rbf_centered nf m n k z w x v) as [p [Hp Ep]]. destruct (rbf_centered nf m n' k z w x' v) as [p' [Hp' Ep']].
    exists p, p'. repeat split; auto. intro. now rewrite Ep, Ep', E.
  - destruct (rbf_plain nf m n k z w x (Some (m, v))) as [p [Hp Ep]]. destruct (rbf_plain nf m n' k z w x' (Some (m, v))) as [p' [Hp' Ep']].
    exists p, p'. repeat split; auto. intro. now rewrite Ep, Ep', E.
Qed.
(** ** loss *)
Lemma loss_plain : forall out nf m n o k alpha z w x y, exists p, predict_linear nf m n k z w x false None = Some (p, None) /\
  train_loss out nf m n o k alpha z w x y false None
  = Some (/ INR (n * o) * sum n (fun j => sum o (fun q => (out p j q - y j q) ^ 2)) + alpha / INR n * sum m (fun i => sum o (fun q => w i q ^ 2))).
Proof.
  intros. unfold train_loss, rbf_predict. destruct (rbf_plain nf m n k z w x None) as [p [-> _]]. exists p. split; [reflexivity|].
  f_equal. rewrite (sum_ext m (fun i => sum o (fun q => w i q * w i q)) (fun i => sum o (fun q => w i q ^ 2))).
  - unfold Rdiv. ring.
  - intros. apply sum_ext. intros. ring.
Qed.
Lemma loss_raises : forall out nf m n o k alpha z w x y center v l,
  train_loss out nf m n o k alpha z w x y center (Some (l, v)) = None.
Proof. reflexivity. Qed.
Lemma loss_raises_none : forall out nf m n o k alpha z w x y center,
  train_loss out nf m n o k alpha z w x y center None = None <-> center = true /\ m <> n /\ m <> 1%nat /\ n <> 1%nat.
Proof.
  intros. unfold train_loss, rbf_predict. rewrite <- (predict_linear_raises nf m n k z w x center None).
  destruct (predict_linear nf m n k z w x center None) as [[p q]|]; split; congruence.
Qed.

(** convexity of the loss in the weights: what a stationary point is *)
Section Convex.
  Variables (nf m n o : nat) (k : kexp) (alpha : R) (z x y : Mat).
  Let P (w : Mat) (j q : nat) : R := sum m (fun i => kernel_at nf k (z i) (x j) * w i q).
  Let Lo (w : Mat) : R :=
    / INR (n * o) * sum n (fun j => sum o (fun q => (P w j q - y j q) ^ 2)) + alpha / INR n * sum m (fun i => sum o (fun q => w i q ^ 2)).
  (** half the gradient *)
  Let grad (w : Mat) (i q : nat) : R :=
    / INR (n * o) * sum n (fun j => kernel_at nf k (z i) (x j) * (P w j q - y j q)) + alpha / INR n * w i q.
  Lemma loss_expand : forall w w', Lo w' = Lo w
    + 2 * sum m (fun i => sum o (fun q => grad w i q * (w' i q - w i q)))
    + / INR (n * o) * sum n (fun j => sum o (fun q => (P w' j q - P w j q) ^ 2))
    + alpha / INR n * sum m (fun i => sum o (fun q => (w' i q - w i q) ^ 2)).
  Proof.
    intros w w'. unfold Lo.
    assert (D : forall j q, P w' j q - P w j q = sum m (fun i => kernel_at nf k (z i) (x j) * (w' i q - w i q))).
    { intros. unfold P. rewrite <- sum_minus. apply sum_ext. intros; ring. }
    assert (C : sum m (fun i => sum o (fun q => grad w i q * (w' i q - w i q)))
      = / INR (n * o) * sum n (fun j => sum o (fun q => (P w j q - y j q) * (P w' j q - P w j q)))
        + alpha / INR n * sum m (fun i => sum o (fun q => w i q * (w' i q - w i q)))).
    { unfold grad.
      rewrite (sum_ext m _ (fun i => / INR (n * o) * sum o (fun q => sum n (fun j => kernel_at nf k (z i) (x j) * (P w j q - y j q) * (w' i q - w i q)))
        + alpha / INR n * sum o (fun q => w i q * (w' i q - w i q)))).
      - rewrite sum_plus, !sum_scal_l. f_equal. f_equal. rewrite sum_swap.
        rewrite (sum_ext o _ (fun q => sum n (fun j => (P w j q - y j q) * (P w' j q - P w j q)))).
        + now rewrite sum_swap.
        + intros q _. rewrite sum_swap. apply sum_ext. intros j _. rewrite D, <- sum_scal_l. apply sum_ext. intros; ring.
      - intros i _. rewrite <- !sum_scal_l, <- sum_plus. apply sum_ext. intros q _. rewrite sum_scal_r. ring. }
    rewrite C.
    rewrite (sum_ext n (fun j => sum o (fun q => (P w' j q - y j q) ^ 2)) (fun j => sum o (fun q => (P w j q - y j q) ^ 2)
      + (2 * sum o (fun q => (P w j q - y j q) * (P w' j q - P w j q)) + sum o (fun q => (P w' j q - P w j q) ^ 2)))).
    2:{ intros j _. rewrite <- sum_scal_l, <- !sum_plus. apply sum_ext. intros; ring. }
    rewrite (sum_ext m (fun i => sum o (fun q => w' i q ^ 2)) (fun i => sum o (fun q => w i q ^ 2)
      + (2 * sum o (fun q => w i q * (w' i q - w i q)) + sum o (fun q => (w' i q - w i q) ^ 2)))).
    2:{ intros j _. rewrite <- sum_scal_l, <- !sum_plus. apply sum_ext. intros; ring. }
    rewrite !sum_plus, !sum_scal_l. ring.
  Qed.
  Hypothesis Hn : (0 < n)%nat.
  Hypothesis Ho : (0 < o)%nat.
  Hypothesis Ha : 0 < alpha.
  Lemma inv_pos' : forall a, (0 < a)%nat -> 0 < / INR a.
  Proof. intros. apply Rinv_0_lt_compat, lt_0_INR. auto. Qed.
  Lemma stationary_min : forall w, (forall i q, (i < m)%nat -> (q < o)%nat -> grad w i q = 0) ->
    forall w', Lo w <= Lo w' /\ (Lo w' <= Lo w -> forall i q, (i < m)%nat -> (q < o)%nat -> w' i q = w i q).
  Proof.
    intros w Hg w'. rewrite (loss_expand w w').
    rewrite (sum_zero_ext m (fun i => sum o (fun q => grad w i q * (w' i q - w i q))))
      by (intros i Hi; apply sum_zero_ext; intros q Hq; rewrite Hg by auto; ring).
    assert (A1 : 0 <= / INR (n * o) * sum n (fun j => sum o (fun q => (P w' j q - P w j q) ^ 2))).
    { apply Rmult_le_pos; [left; apply inv_pos'; nia|]. repeat (apply sum_nonneg; intros). apply pow2_ge_0. }
    assert (P2 : 0 <= sum m (fun i => sum o (fun q => (w' i q - w i q) ^ 2))).
    { repeat (apply sum_nonneg; intros). apply pow2_ge_0. }
    assert (A3 : 0 < alpha / INR n) by (unfold Rdiv; apply Rmult_lt_0_compat; [auto|now apply inv_pos']).
    assert (A2 : 0 <= alpha / INR n * sum m (fun i => sum o (fun q => (w' i q - w i q) ^ 2))) by (apply Rmult_le_pos; lra).
    split; [lra|]. intros H i q Hi Hq.
    assert (Z : sum m (fun i => sum o (fun q => (w' i q - w i q) ^ 2)) = 0).
    { destruct P2 as [P2|P2]; [|auto]. assert (0 < alpha / INR n * sum m (fun i => sum o (fun q => (w' i q - w i q) ^ 2))) by now apply Rmult_lt_0_compat. lra. }
    assert (Z1 : sum o (fun q => (w' i q - w i q) ^ 2) = 0).
    { apply (sum_nonneg_zero m (fun i => sum o (fun q => (w' i q - w i q) ^ 2))); auto. intros. apply sum_nonneg. intros. apply pow2_ge_0. }
    assert (Z2 : (w' i q - w i q) ^ 2 = 0).
    { apply (sum_nonneg_zero o (fun q => (w' i q - w i q) ^ 2)); auto. intros. apply pow2_ge_0. }
    assert (w' i q - w i q = 0); [|lra]. apply Rsqr_0_uniq. unfold Rsqr. lra.
  Qed.
End Convex.
Lemma loss_stationary : forall nf m n o k alpha z x y w, (0 < n)%nat -> (0 < o)%nat -> 0 < alpha ->
  (forall i q, (i < m)%nat -> (q < o)%nat ->
     / INR (n * o) * sum n (fun j => kernel_at nf k (z i) (x j) * (sum m (fun l => kernel_at nf k (z l) (x j) * w l q) - y j q))
     + alpha / INR n * w i q = 0) ->
  forall w', exists l l', train_loss (fun p => p) nf m n o k alpha z w x y false None = Some l /\
    train_loss (fun p => p) nf m n o k alpha z w' x y false None = Some l' /\ l <= l' /\
    (l' <= l -> forall i q, (i < m)%nat -> (q < o)%nat -> w' i q = w i q).
Proof.
  intros nf m n o k alpha z x y w Hn Ho Ha Hg w'.
  assert (V : forall w, train_loss (fun p => p) nf m n o k alpha z w x y false None
    = Some (/ INR (n * o) * sum n (fun j => sum o (fun q => (sum m (fun i => kernel_at nf k (z i) (x j) * w i q) - y j q) ^ 2))
       + alpha / INR n * sum m (fun i => sum o (fun q => w i q ^ 2)))).
  { intro v. destruct (loss_plain (fun p => p) nf m n o k alpha z v x y) as [p [Hp ->]].
    destruct (rbf_plain nf m n k z v x None) as [p' [Hp' E]]. rewrite Hp in Hp'. injection Hp' as <-.
    f_equal. f_equal. f_equal. apply sum_ext. intros. apply sum_ext. intros. now rewrite E. }
  do 2 eexists. split; [apply V|]. split; [apply V|].
  apply (stationary_min nf m n o k alpha z x y Hn Ho Ha w Hg w').
Qed.
(** an instance of the stationarity condition *)
Lemma ex_stationary : forall i q, (i < 1)%nat -> (q < 1)%nat ->
  / INR (1 * 1) * sum 1 (fun j => kernel_at 1 lin (ones i) (ones j) * (sum 1 (fun l => kernel_at 1 lin (ones l) (ones j) * (/ 2)) - 1))
  + 1 / INR 1 * (/ 2) = 0.
Proof.
  intros i q _ _. cbn [sum]. rewrite <- !(kk_at 1 lin ones ones), !lin_kk. unfold ones. simpl. lra.
Qed.
