(** Facts about Model/Shapes.v. *)
From Coq Require Import Arith List Lia Reals.
From Verif Require Import Base.Mat Model.PyDict Model.State Model.LinAlg Model.RBFNet Model.Sampling Model.Shapes Proofs.SamplingFacts.
Import ListNotations.
Local Open Scope nat_scope.

Lemma bc_same : forall a, bcast a a = Some a.
Proof. intro. unfold bcast. now rewrite Nat.eqb_refl. Qed.
Lemma bc_2 : forall a b c d, broadcast [a; b] [c; d] = (y <- bcast b d ;; x <- bcast a c ;; Some [x; y]).
Proof. intros. unfold broadcast. cbn. destruct (bcast b d); [|reflexivity]. now destruct (bcast a c). Qed.
Lemma bc_same2 : forall a b, broadcast [a; b] [a; b] = Some [a; b].
Proof. intros. now rewrite bc_2, !bc_same. Qed.
Lemma bc_nil : forall a, broadcast [] a = Some a.
Proof. intro a. unfold broadcast. cbn. destruct (rev a) eqn:Q; rewrite <- Q, rev_involutive; reflexivity. Qed.
Lemma kern_ok : forall a b f, kern [a; f] [b; f] = Some [a; b].
Proof. intros. unfold kern. now rewrite Nat.eqb_refl. Qed.
Lemma jac_some : forall n f v, jac_ok [n; f] [n; f; v] = Some v.
Proof. intros. unfold jac_ok. now rewrite !Nat.eqb_refl. Qed.
Lemma d01_ok : forall a b f v w, d01kj [a; f] [b; f] [a; f; v] [b; f; w] = Some [a * v; b * w].
Proof. intros. unfold d01kj. now rewrite !jac_some, kern_ok. Qed.
Lemma d0_ok : forall a b f v, d0kj [a; f] [b; f] [a; f; v] = Some [a * v; b].
Proof. intros. unfold d0kj. now rewrite jac_some, kern_ok. Qed.
Lemma d1_ok : forall a b f v, d1kj [a; f] [b; f] [b; f; v] = Some [a; b * v].
Proof. intros. unfold d1kj. now rewrite jac_some, kern_ok. Qed.
Lemma d0c_ok : forall a b f, d0kjc [a; f] [b; f] [a; f] = Some [a; b].
Proof. intros. unfold d0kjc. now rewrite !Nat.eqb_refl, kern_ok. Qed.
Lemma d01c_ok : forall a b f w, d01kjc [a; f] [b; f] [a; f] [b; f; w] = Some [a; b * w].
Proof. intros. unfold d01kjc. now rewrite d0c_ok, jac_some. Qed.
Lemma dot_22 : forall p q s, dot [p; q] [q; s] = Some [p; s].
Proof. intros. cbn. now rewrite Nat.eqb_refl. Qed.
Lemma dot_21 : forall p q, dot [p; q] [q] = Some [p].
Proof. intros. cbn. now rewrite Nat.eqb_refl. Qed.
Lemma chol_sq : forall n, cholesky [n; n] = Some [n; n].
Proof. intro. unfold cholesky, square. now rewrite Nat.eqb_refl. Qed.
Lemma solve_2 : forall n p o, solve [n; n] [p; o] = if Nat.eqb p n then Some [p; o] else None.
Proof. intros. unfold solve, square. now rewrite Nat.eqb_refl. Qed.
Lemma solve_ok : forall n o, solve [n; n] [n; o] = Some [n; o].
Proof. intros. now rewrite solve_2, Nat.eqb_refl. Qed.
Lemma solve_1 : forall n p, solve [n; n] [p] = if Nat.eqb p n then Some [p] else None.
Proof. intros. unfold solve, square. now rewrite Nat.eqb_refl. Qed.
Lemma rs_any1 : forall a, reshape_any a 1 = Some [size a; 1].
Proof. intro. unfold reshape_any. now rewrite Nat.mod_1_r, Nat.div_1_r. Qed.
Lemma rs_ok : forall a b, size a = size b -> reshape a b = Some b.
Proof. intros a b H. unfold reshape. now rewrite H, Nat.eqb_refl. Qed.
Lemma gA : forall a b f, g_A_lhs [a; f] [b; f] false = Some [a; b].
Proof. intros. unfold g_A_lhs. now rewrite kern_ok. Qed.
Lemma gAn : forall a f, g_A_lhs [a; f] [a; f] true = Some [a; a].
Proof. intros. unfold g_A_lhs, dim0, eye. now rewrite kern_ok, bc_same2. Qed.
Lemma gD : forall a b f v w, g_A_derivs_lhs [a; f] [a; f; v] [b; f] [b; f; w] false = Some [a * v; b * w].
Proof. intros. unfold g_A_derivs_lhs. now rewrite d01_ok. Qed.
Lemma gDn : forall a f v, g_A_derivs_lhs [a; f] [a; f; v] [a; f] [a; f; v] true = Some [a * v; a * v].
Proof. intros. unfold g_A_derivs_lhs, dim0, eye. now rewrite d01_ok, jac_some, bc_same2. Qed.
Lemma schur_ok : forall m n p, schur [m; m] [m; n] [p; p] = broadcast [p; p] [n; n].
Proof. intros. unfold schur. rewrite chol_sq, solve_ok. cbn [transpose rev app]. now rewrite dot_22. Qed.
Lemma sA : forall m n f, s_A_lhs [m; f] [n; f] = Some ([m; m], [m; n]).
Proof. intros. unfold s_A_lhs, dim0, eye. rewrite !kern_ok. cbn [transpose rev app]. now rewrite dot_22, !bc_same2. Qed.
Lemma sD : forall m n f v w, s_A_derivs_lhs [m; f] [m; f; v] [n; f] [n; f; w] = Some ([m * v; m * v], [m * v; n * w]).
Proof. intros. unfold s_A_derivs_lhs, dim0, eye. rewrite jac_some, !d01_ok. cbn [transpose rev app]. now rewrite dot_22, !bc_same2. Qed.
Lemma schur2_ok : forall m n, schur2 [m; m] [m; m] [m; n] [n; n] = Some [n; n].
Proof. intros. unfold schur2. rewrite !chol_sq, !solve_ok. cbn [transpose rev app]. now rewrite !dot_22, !bc_same2. Qed.

(** ** GPR *)
Lemma gpr_values : forall m n f o,
  g_fit_dense [m; f] [m; o] = Some [m; o] /\ g_predict [m; f] [n; f] [m; o] = Some [n; o] /\
  g_fit_dense [m; f] [m] = Some [m] /\ g_predict [m; f] [n; f] [m] = Some [n] /\
  g_predict_cov [m; f] [n; f] = Some [n; n] /\ g_lml [m; f] [m; o] = Some [].
Proof.
  intros. unfold g_fit_dense, g_predict, g_predict_cov, g_lml. rewrite !gAn, !gA. cbn [transpose rev app].
  rewrite chol_sq, schur_ok, !solve_ok, solve_1, Nat.eqb_refl, dot_22, dot_21, !bc_nil, bc_same2. repeat split.
Qed.
Lemma gpr_wrong : forall m f p o, p <> m -> g_fit_dense [m; f] [p; o] = None /\ g_lml [m; f] [p; o] = None.
Proof.
  intros m f p o H. apply Nat.eqb_neq in H. unfold g_fit_dense, g_lml. now rewrite gAn, chol_sq, solve_2, H.
Qed.
Lemma sz : forall a b, size [a; b] = a * b.
Proof. intros. cbn. lia. Qed.
Lemma gpr_derivs : forall m n f v d,
  g_fit_derivs [m; f] [m; v] [m; f; v] = Some ([m * v; 1], [m; f]) /\
  g_predict_derivs [m; f] [m; f; v] [n; f] [n; f; d] [m * v; 1] = Some [n; d] /\
  g_predict_derivs_jc [m; f] [n; f] [n; f; d] [m; f] = Some [n; d] /\
  g_predict_derivs_cov [m; f] [m; f; v] [n; f] [n; f; d] [m * v; 1] = Some ([n * d; 1], [n * d; n * d]) /\
  g_predict_y_derivs_jc [m; f] [n; f] [m * v; 1] [m; f] = Some [n; 1] /\
  g_predict_y_derivs_cov [m; f] [m; f; v] [n; f] [m * v; 1] = Some ([n; 1], [n; n]) /\
  g_lml_derivs [m; f] [m; f; v] [m; v] = Some [].
Proof.
  intros. unfold g_fit_derivs, g_fit_derivs_dense, g_predict_derivs, g_predict_derivs_jc, g_predict_derivs_cov,
    g_predict_y_derivs_jc, g_predict_y_derivs_cov, g_lml_derivs, jaccoef.
  rewrite !rs_any1, !sz, !gD, !gDn, !d01c_ok, !d0c_ok, !d0_ok, !d01_ok, !kern_ok. cbn [transpose rev app sum0 dim0 dim1].
  unfold eye. rewrite !dot_22, !bc_nil, !bc_same2, !schur_ok, !bc_same2, chol_sq, !solve_ok.
  rewrite !rs_ok by (cbn; lia). repeat split.
Qed.
Lemma gpr_derivs_outputs : forall m f v o, g_fit_derivs [m; f] [m; v; o] [m; f; v] = None <-> o <> 1 /\ m * v <> 0.
Proof.
  intros. unfold g_fit_derivs, g_fit_derivs_dense. rewrite rs_any1, gDn, solve_2. cbn [size fold_right].
  destruct (Nat.eqb_spec (m * (v * (o * 1))) (m * v)) as [Q|Q].
  - unfold jaccoef. rewrite rs_ok by (cbn; lia). split; [discriminate|]. intros [H1 H2]. exfalso. nia.
  - split; [|reflexivity]. intros _. nia.
Qed.
Lemma ol_shape : forall m f v, ol_solve [m; f] [m; 1] [m; v] [m; f; v] = Some [m; 1].
Proof.
  intros. unfold ol_solve. rewrite rs_any1, gAn, d0_ok. unfold concatenate. rewrite !Nat.eqb_refl. unfold svd.
  replace (Nat.min (m + m * v) m) with m by lia. cbn [transpose rev app]. rewrite sz, !dot_22, solve_ok, rs_any1, sz. now rewrite Nat.mul_1_r.
Qed.
Lemma ol_predict : forall m n f d,
  g_predict_ol [m; f] [n; f] [n; f; d] [m; 1] = Some ([n; 1], [n * d; 1]) /\
  g_predict_ol_cov [m; f] [n; f] [n; f; d] [m; 1]
  = (if Nat.eqb d 1 then Some ([n; 1], [n; n]) else if Nat.eqb n 1 then Some ([1; 1], [d; d]) else if Nat.eqb n 0 then Some ([0; 1], [0; 0]) else None).
Proof.
  intros. unfold g_predict_ol, g_predict_ol_cov. rewrite !gA, gAn, d1_ok. cbn [transpose rev app].
  rewrite !dot_22, !rs_any1, !sz, bc_nil, schur_ok, bc_2, !Nat.mul_1_l. split; [reflexivity|].
  destruct (Nat.eqb_spec d 1) as [->|D].
  - now rewrite Nat.mul_1_r, bc_same.
  - destruct (Nat.eqb_spec n 1) as [->|N].
    + rewrite Nat.mul_1_l. unfold bcast. destruct (Nat.eqb_spec 1 d); [congruence|]. reflexivity.
    + destruct (Nat.eqb_spec n 0) as [->|Z]; [reflexivity|]. unfold bcast.
      destruct (Nat.eqb_spec n (n * d)); [exfalso; nia|]. destruct (Nat.eqb_spec n 1); [lia|]. destruct (Nat.eqb_spec (n * d) 1); [exfalso; nia|]. reflexivity.
Qed.
Lemma mse_shape : forall m f a b, 0 < b -> g_mse [m; f] [m; 1] [m; f; a * b] [m; a; b] = Some [] /\
  forall v, g_mse [m; f] [m; 1] [m; f; v] [m; v] = None.
Proof.
  intros m f a b Hb. split; [|reflexivity]. unfold g_mse.
  assert (Q : ol_solve [m; f] [m; 1] [m; a; b] [m; f; a * b] = Some [m; 1]).
  { rewrite <- (ol_shape m f (a * b)). unfold ol_solve. rewrite !rs_any1. now replace (size [m; a; b]) with (size [m; a * b]) by (cbn; lia). }
  rewrite Q, !rs_any1, gA, d1_ok. cbn [transpose rev app]. rewrite !dot_22, rs_any1, sz, Nat.mul_1_l, bc_same2.
  assert (M : forall s, size s = m * (a * b) -> reshape_any s b = Some [m * a; b]).
  { intros s Hs. unfold reshape_any. destruct b; [lia|]. rewrite Hs, Nat.mul_assoc, Nat.mod_mul, Nat.div_mul by lia. reflexivity. }
  rewrite (M [1; m * (a * b)]) by (cbn; lia). rewrite (M [size [m; a; b]; 1]) by (cbn; lia). now rewrite bc_same2.
Qed.

(** ** SGPR *)
Lemma sgpr_values : forall m n f o,
  s_fit_dense [m; f] [n; f] [n; o] = Some [m; o] /\ s_predict [m; f] [n; f] [m; o] = Some [n; o] /\
  s_predict_cov [m; f] [n; f] = Some [n; n] /\ s_lml [m; f] [n; f] [n; o] = Some [].
Proof.
  intros. unfold s_fit_dense, s_predict, s_predict_cov, s_lml, s_lml_of. rewrite !sA, !kern_ok. cbn [fst snd dim0 transpose rev app].
  unfold eye. rewrite !dot_22, !bc_same2, schur2_ok, !solve_ok, bc_nil, chol_sq, solve_ok. cbn [transpose rev app].
  rewrite dot_22, !bc_same2, chol_sq, solve_ok. repeat split.
Qed.
Lemma sgpr_derivs : forall m n f v d,
  s_fit_derivs [m; f] [m; f; v] [n; f] [n; d] [n; f; d] = Some ([m * v; 1], [m; f]) /\
  s_predict_derivs [m; f] [m; f; v] [n; f] [n; f; d] [m * v; 1] = Some [n; d].
Proof.
  intros. unfold s_fit_derivs, s_fit_derivs_dense, s_predict_derivs, jaccoef.
  rewrite rs_any1, sz, sD, d01_ok. cbn [fst snd]. rewrite !dot_22, solve_ok, bc_nil. rewrite !rs_ok by (cbn; lia). repeat split.
Qed.
Lemma eye_fits : forall m v, broadcast [m * v; m * v] [m; m] = if (Nat.leb m 1 || Nat.eqb v 1)%bool then Some [m * v; m * v] else None.
Proof.
  intros. rewrite bc_2. unfold bcast.
  destruct (Nat.eqb_spec (m * v) m) as [Q|Q].
  - rewrite Q. destruct (Nat.leb_spec m 1), (Nat.eqb_spec v 1); cbn; auto. exfalso. nia.
  - destruct (Nat.eqb_spec m 1) as [->|M].
    + cbn [Nat.leb orb]. destruct (Nat.eqb_spec (1 * v) 1); [lia|]. reflexivity.
    + destruct (Nat.eqb_spec (m * v) 1) as [e|]; [apply Nat.eq_mul_1 in e; lia|].
      destruct (Nat.leb_spec m 1); [assert (m = 0) by lia; subst; lia|].
      destruct (Nat.eqb_spec v 1); [subst; lia|]. reflexivity.
Qed.
Lemma sgpr_cov_derivs : forall m n f v d,
  s_predict_derivs_cov [m; f] [m; f; v] [n; f] [n; f; d] [m * v; 1]
  = if (Nat.leb m 1 || Nat.eqb v 1)%bool then Some ([n; d], [n * d; n * d]) else None.
Proof.
  intros. unfold s_predict_derivs_cov. rewrite (proj2 (sgpr_derivs m n f v d)), sD, !d01_ok. cbn [dim0 fst snd]. unfold eye.
  rewrite eye_fits. destruct (Nat.leb m 1 || Nat.eqb v 1)%bool; [|reflexivity]. now rewrite schur2_ok.
Qed.
Lemma sgpr_cov_y_derivs : forall m n f v,
  s_predict_y_derivs_cov [m; f] [m; f; v] [n; f] [m * v; 1]
  = if (Nat.leb m 1 || Nat.eqb v 1)%bool then Some ([n; 1], [n; n]) else None.
Proof.
  intros. unfold s_predict_y_derivs_cov. rewrite d0_ok, d01_ok, kern_ok. cbn [dim0 fst snd transpose rev app]. unfold eye.
  rewrite dot_22, bc_nil, eye_fits. destruct (Nat.leb m 1 || Nat.eqb v 1)%bool; [|reflexivity]. now rewrite schur_ok, bc_same2.
Qed.
Lemma sgpr_lml_derivs : forall m n f v d,
  (s_lml_derivs [m; f] [m; f; v] [n; f] [n; d] [n; f; d] = Some [] <-> (m <= 1 \/ v = 1) /\ (n = 0 \/ d = 1)) /\
  (s_lml_derivs [m; f] [m; f; v] [n; f] [n * d; 1] [n; f; d] = Some [] <-> m <= 1 \/ v = 1).
Proof.
  intros. assert (B : (m <= 1 \/ v = 1) <-> (Nat.leb m 1 || Nat.eqb v 1)%bool = true).
  { rewrite Bool.orb_true_iff, Nat.leb_le, Nat.eqb_eq. tauto. }
  unfold s_lml_derivs, s_lml_of. rewrite !d01_ok. cbn [dim0]. unfold eye. rewrite !eye_fits, B.
  destruct (Nat.leb m 1 || Nat.eqb v 1)%bool.
  2:{ split; split; try discriminate. intros [? _]. discriminate. }
  rewrite chol_sq, solve_ok. cbn [transpose rev app]. rewrite dot_22, eye_fits, !bc_same2, chol_sq, solve_ok. split; [|tauto].
  destruct (Nat.leb_spec n 1) as [N|N]; cbn [orb].
  - rewrite eye_fits, (proj2 (Nat.leb_le n 1) N). cbn [orb]. rewrite chol_sq, solve_2.
    destruct (Nat.eqb_spec n (n * d)); split; intro H; try discriminate; auto.
    + split; [auto|]. nia.
    + exfalso. destruct H as [_ [H|H]]; subst; lia.
  - destruct (Nat.eqb_spec d 1) as [->|D].
    + rewrite Nat.mul_1_r, bc_same2, chol_sq, solve_ok. tauto.
    + split; [discriminate|]. intros [_ [H|H]]; lia.
Qed.
Lemma sgpr_row : forall m n f v d, s_Hx_derivs_row [m; f] [m; f; v] [n; f] [n; f; d] = Some [v; n * v] <-> n = 0 \/ v = d.
Proof.
  intros. unfold s_Hx_derivs_row. rewrite !jac_some, kern_ok. cbn [dim0]. unfold reshape. cbn [size fold_right].
  destruct (Nat.eqb_spec (d * (d * (n * 1))) (v * (n * v * 1))) as [Q|Q]; split; intro H; auto; try discriminate.
  - destruct (Nat.eq_dec n 0) as [|N]; [auto|right].
    assert (n * (d * d) = n * (v * v)) as E by lia. apply Nat.mul_cancel_l in E; [|auto]. nia.
  - exfalso. apply Q. destruct H; subst; lia.
Qed.
Lemma sgpr_sampling : forall m n f v d mu cov, (0 < n)%nat -> (1 < d)%nat ->
  s_predict_derivs_cov [m; f] [m; f; v] [n; f] [n; f; d] [m * v; 1] = Some (mu, cov) ->
  mu = [n; d] /\ cov = [n * d; n * d] /\
  forall la normal k (M C : Mat) s, sample la normal k (Mean2 n d M) (add_jitter (Cov (n * d) C)) s = Err ValueError.
Proof.
  intros m n f v d mu cov Hn Hd H. rewrite sgpr_cov_derivs in H. destruct (Nat.leb m 1 || Nat.eqb v 1)%bool; [|discriminate].
  injection H as <- <-. repeat split. intros. destruct d as [|d]; [lia|]. apply sample_mismatch. cbn [c_dim add_jitter]. nia.
Qed.
