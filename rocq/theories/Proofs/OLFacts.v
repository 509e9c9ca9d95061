(** Operator learning solves a least-squares problem. *)
From Coq Require Import Reals Arith Lia Lra List.
From Verif Require Import Base.Sums Base.Mat Base.PSD Model.Arrays Model.Kernels Model.LinAlg Model.Operations
  Model.RPCholesky Model.GPR Model.OL Spec.KernelSpec Spec.OLSpec Proofs.LinAlgFacts Proofs.Loops Proofs.KernelDerivs Proofs.KernelSym
  Proofs.KernelPropLemmas Proofs.JetPSD Proofs.GPRFacts Proofs.GPRCov Proofs.GPRExamples Proofs.SGPRExamples.
Open Scope R_scope.

Section LS.
  Variables (p m : nat) (C U : Mat) (s : Vec) (Vt : Mat) (y : Vec).
  Hypothesis SVD : is_svd p m C U s Vt.
  Let Aeff := mm m (diagm s) Vt.
  Lemma Aeff_e : forall l j, (l < m)%nat -> Aeff l j = s l * Vt l j.
  Proof.
    intros l j Hl. unfold Aeff, mm, diagm.
    rewrite (sum_single m l); auto.
    - now rewrite Nat.eqb_refl.
    - intros i Hi Hn. rewrite (proj2 (Nat.eqb_neq l i)) by auto. ring.
  Qed.
  Lemma C_mv : forall v i, (i < p)%nat -> mv m C v i = sum m (fun l => U i l * mv m Aeff v l).
  Proof.
    intros v i Hi. destruct SVD as [_ [_ [HC _]]]. unfold mv at 1.
    rewrite (sum_ext m _ (fun j => sum m (fun l => U i l * (s l * Vt l j) * v j))).
    2:{ intros j Hj. rewrite HC by auto. now rewrite sum_scal_r. }
    rewrite sum_swap. apply sum_ext. intros l Hl. unfold mv. rewrite <- sum_scal_l. apply sum_ext. intros j Hj.
    rewrite Aeff_e by auto. ring.
  Qed.
  Lemma U_orth : forall a (w : Vec), (a < m)%nat -> sum p (fun i => U i a * sum m (fun l => U i l * w l)) = w a.
  Proof.
    intros a w Ha. destruct SVD as [HU _].
    rewrite (sum_ext p _ (fun i => sum m (fun l => U i a * U i l * w l))).
    2:{ intros i Hi. rewrite <- sum_scal_l. apply sum_ext. intros; ring. }
    rewrite sum_swap. rewrite (sum_ext m _ (fun l => delta a l * w l)).
    - now apply sum_delta_l.
    - intros l Hl. pose proof (HU a l Ha Hl) as Q. unfold eye in Q. rewrite <- Q. unfold mm, tr. now rewrite <- sum_scal_r.
  Qed.
  Hypothesis INJ : forall v, (forall i, (i < p)%nat -> mv m C v i = 0) -> forall j, (j < m)%nat -> v j = 0.
  Lemma Aeff_nonsing : nonsing m Aeff.
  Proof.
    intros v H. apply INJ. intros i Hi. rewrite C_mv by auto. apply sum_zero_ext. intros l Hl. rewrite H by auto. ring.
  Qed.
  Variable c : Vec.
  Hypothesis Hc : forall a, (a < m)%nat -> mv m Aeff c a = sum p (fun i => U i a * y i).
  (** the residual is orthogonal to the columns of C *)
  Lemma normal_eq : forall v, sum p (fun i => mv m C v i * (mv m C c i - y i)) = 0.
  Proof.
    intro v.
    rewrite (sum_ext p _ (fun i => sum m (fun l => mv m Aeff v l * (U i l * (mv m C c i - y i))))).
    2:{ intros i Hi. rewrite C_mv by auto. rewrite <- sum_scal_r. apply sum_ext. intros; ring. }
    rewrite sum_swap. apply sum_zero_ext. intros l Hl. rewrite sum_scal_l.
    replace (sum p (fun i => U i l * (mv m C c i - y i))) with 0; [ring|]. symmetry.
    rewrite (sum_ext p _ (fun i => U i l * sum m (fun l => U i l * mv m Aeff c l) - U i l * y i)).
    2:{ intros i Hi. rewrite C_mv by auto. ring. }
    rewrite sum_minus, U_orth, Hc by auto. ring.
  Qed.
  Lemma ls_pythagoras : forall c', sum p (fun i => (mv m C c' i - y i) ^ 2)
    = sum p (fun i => (mv m C c i - y i) ^ 2) + sum p (fun i => (mv m C (fun j => c' j - c j) i) ^ 2).
  Proof.
    intro c'. pose proof (normal_eq (fun j => c' j - c j)) as Q.
    rewrite (sum_ext p (fun i => (mv m C c' i - y i) ^ 2) (fun i => ((mv m C c i - y i) ^ 2 + (mv m C (fun j => c' j - c j) i) ^ 2)
       + 2 * (mv m C (fun j => c' j - c j) i * (mv m C c i - y i)))).
    - rewrite !sum_plus, sum_scal_l, Q. ring.
    - intros i _. rewrite mv_sub. ring.
  Qed.
  Lemma ls_min : forall c', sum p (fun i => (mv m C c i - y i) ^ 2) <= sum p (fun i => (mv m C c' i - y i) ^ 2).
  Proof.
    intro c'. rewrite (ls_pythagoras c').
    assert (0 <= sum p (fun i => (mv m C (fun j => c' j - c j) i) ^ 2)) by (apply sum_nonneg; intros; apply pow2_ge_0). lra.
  Qed.
  Lemma ls_unique : forall c', sum p (fun i => (mv m C c' i - y i) ^ 2) <= sum p (fun i => (mv m C c i - y i) ^ 2) ->
    forall j, (j < m)%nat -> c' j = c j.
  Proof.
    intros c' H. rewrite (ls_pythagoras c') in H.
    assert (Z : sum p (fun i => (mv m C (fun j => c' j - c j) i) ^ 2) = 0).
    { apply Rle_antisym; [lra|]. apply sum_nonneg; intros; apply pow2_ge_0. }
    assert (V : forall i, (i < p)%nat -> mv m C (fun j => c' j - c j) i = 0).
    { apply sum_square_zero. rewrite <- Z. apply sum_ext. intros; ring. }
    intros j Hj. pose proof (INJ _ V j Hj). lra.
  Qed.
End LS.

Section OL.
  Variable la : linalg.
  Hypothesis ok : linalg_ok la.
  Variables (m nf nv : nat) (k : kexp) (sigma : R) (x y yd : Mat) (jac : Ten) (mf : nat -> nat -> Mat -> R).
  Hypothesis HP : all_atoms (fun _ a => psd_atom a) k.
  Hypothesis W : wf nf k.
  Variables (U : Mat) (s : Vec) (Vt : Mat).
  Let C := ol_matrix m nf nv k sigma x jac.
  Let p := (m + m * nv)%nat.
  Hypothesis SVD : is_svd p m C U s Vt.
  Let c := fst (fit_ol la U s Vt m nf nv k sigma x y yd jac mf).
  Let mu := mf m 1%nat y.
  Let yt := ol_rhs m nv y yd mu.
  Lemma ol_inj : forall v, (forall i, (i < p)%nat -> mv m C v i = 0) -> forall j, (j < m)%nat -> v j = 0.
  Proof.
    intros v H. apply (pd_nonsing m _ (A_pd nf k sigma x m HP)). intros i Hi. rewrite <- (H i) by (unfold p; lia).
    unfold mv. apply sum_ext. intros j Hj. unfold C, ol_matrix, vcat. now rewrite (proj2 (Nat.ltb_lt i m)).
  Qed.
  Lemma ol_solves : forall a, (a < m)%nat -> mv m (mm m (diagm s) Vt) (fun i => c i O) a = sum p (fun i => U i a * yt i O).
  Proof.
    intros a Ha. exact (ok_solve la ok m 1 _ (mm p (tr U) yt) (Aeff_nonsing p m C U s Vt SVD ol_inj) a O Ha Nat.lt_0_1).
  Qed.
  (** the stacked residual in terms of the predictions at the training points *)
  Lemma ol_rows : forall c' : Mat, sum p (fun i => (mv m C (fun j => c' j O) i - yt i O) ^ 2)
    = ol_objective m nv sigma y yd c' (fun i => predict_ol_y m nf k sigma x x c' mu i O)
        (fun t u => predict_ol_yd m m nf nv k x x jac c' (t * nv + u)%nat O).
  Proof.
    intro c'. unfold p, ol_objective. rewrite sum_app. f_equal.
    - apply sum_ext. intros i Hi. f_equal. unfold yt, ol_rhs, C, ol_matrix, mv, vcat. rewrite (proj2 (Nat.ltb_lt i m)) by auto.
      unfold predict_ol_y, A_lhs, add_diag, mm, tr.
      rewrite (sum_ext m _ (fun j => c' j O * kk nf k x x j i + delta i j * ((sigma ^ 2 + jit10) * c' j O))).
      + rewrite sum_plus, (sum_delta_l m i (fun j => (sigma ^ 2 + jit10) * c' j O) Hi). unfold jit10. ring.
      + intros j Hj. rewrite (kk_sym nf k x x j i). unfold eye. ring.
    - rewrite sum_block. apply sum_ext. intros t Ht. apply sum_ext. intros u Hu. f_equal.
      unfold yt, ol_rhs, C, ol_matrix, mv, vcat. rewrite (proj2 (Nat.ltb_ge (m + (t * nv + u)) m)) by lia.
      replace (m + (t * nv + u) - m)%nat with (t * nv + u)%nat by lia. unfold flat. rewrite blk_div, blk_mod by auto.
      f_equal. unfold predict_ol_yd, mm, tr. apply sum_ext. intros j Hj.
      rewrite d0kj_E0, d1kj_E0 by auto. ring.
  Qed.
  Lemma ol_objective_min : forall c' : Mat,
    ol_objective m nv sigma y yd c (fun i => predict_ol_y m nf k sigma x x c mu i O)
      (fun t u => predict_ol_yd m m nf nv k x x jac c (t * nv + u)%nat O)
    <= ol_objective m nv sigma y yd c' (fun i => predict_ol_y m nf k sigma x x c' mu i O)
      (fun t u => predict_ol_yd m m nf nv k x x jac c' (t * nv + u)%nat O).
  Proof.
    intro c'. rewrite <- !ol_rows. apply (ls_min p m C U s Vt (fun i => yt i O) SVD (fun j => c j O) ol_solves (fun j => c' j O)).
  Qed.
  Lemma ol_objective_unique : forall c' : Mat,
    ol_objective m nv sigma y yd c' (fun i => predict_ol_y m nf k sigma x x c' mu i O)
      (fun t u => predict_ol_yd m m nf nv k x x jac c' (t * nv + u)%nat O)
    <= ol_objective m nv sigma y yd c (fun i => predict_ol_y m nf k sigma x x c mu i O)
      (fun t u => predict_ol_yd m m nf nv k x x jac c (t * nv + u)%nat O) ->
    forall j, (j < m)%nat -> c' j O = c j O.
  Proof.
    intro c'. rewrite <- !ol_rows. intro H.
    exact (ls_unique p m C U s Vt (fun i => yt i O) SVD ol_inj (fun j => c j O) ol_solves (fun j => c' j O) H).
  Qed.
End OL.

Lemma fit_ol_least_squares : forall la, linalg_ok la -> forall m nf nv k sigma x y yd jac mf U s Vt,
  all_atoms (fun _ a => psd_atom a) k -> wf nf k ->
  is_svd (m + m * nv) m (vcat m (A_lhs nf k sigma x x true) (d0kj m m nf nv k x x jac)) U s Vt ->
  let c := fst (fit_ol la U s Vt m nf nv k sigma x y yd jac mf) in
  let mu := snd (fit_ol la U s Vt m nf nv k sigma x y yd jac mf) in
  let J := fun c : Mat => ol_objective m nv sigma y yd c (fun i => predict_ol_y m nf k sigma x x c mu i O)
      (fun t u => predict_ol_yd m m nf nv k x x jac c (t * nv + u)%nat O) in
  mu = mf m 1%nat y /\ (forall c', J c <= J c') /\
  (forall c', J c' <= J c -> forall j, (j < m)%nat -> c' j O = c j O).
Proof.
  intros la ok m nf nv k sigma x y yd jac mf U s Vt HP W SVD c mu J. split; [reflexivity|]. split; intro c'.
  - now apply (ol_objective_min la ok m nf nv k sigma x y yd jac mf HP W U s Vt SVD).
  - now apply (ol_objective_unique la ok m nf nv k sigma x y yd jac mf HP W U s Vt SVD).
Qed.
Lemma fit_ol_any_svd : forall la, linalg_ok la -> forall m nf nv k sigma x y yd jac mf U s Vt U' s' Vt',
  all_atoms (fun _ a => psd_atom a) k -> wf nf k ->
  is_svd (m + m * nv) m (vcat m (A_lhs nf k sigma x x true) (d0kj m m nf nv k x x jac)) U s Vt ->
  is_svd (m + m * nv) m (vcat m (A_lhs nf k sigma x x true) (d0kj m m nf nv k x x jac)) U' s' Vt' ->
  meq m 1 (fst (fit_ol la U s Vt m nf nv k sigma x y yd jac mf)) (fst (fit_ol la U' s' Vt' m nf nv k sigma x y yd jac mf)).
Proof.
  intros la ok m nf nv k sigma x y yd jac mf U s Vt U' s' Vt' HP W H H' i j Hi Hj. assert (j = O) by lia. subst j.
  apply (ol_objective_unique la ok m nf nv k sigma x y yd jac mf HP W U' s' Vt' H'); [|auto].
  now apply (ol_objective_min la ok m nf nv k sigma x y yd jac mf HP W U s Vt H).
Qed.
(** the loss is the mean squared error of the predictions at the training points of the model fitted on them *)
Lemma mse_training_error : forall la m nf na jv k sigma x y jac yd mf U s Vt coeff, (0 < jv)%nat ->
  let f := fit_ol la U s Vt m nf (na * jv) k sigma x y (fun s v => yd s (v / jv) (v mod jv))%nat jac mf in
  mse la U s Vt m nf na jv k sigma x y jac yd mf coeff
  = / INR m * sum m (fun i => (predict_ol_y m nf k sigma x x (fst f) (snd f) i O - y i O) ^ 2)
    + coeff * (/ INR (m * na) * sum m (fun t => sum na (fun a => sum jv (fun w =>
        (predict_ol_yd m m nf (na * jv) k x x jac (fst f) (t * (na * jv) + (a * jv + w))%nat O - yd t a w) ^ 2)))).
Proof.
  intros la m nf na jv k sigma x y jac yd mf U s Vt coeff Hjv f. unfold mse. cbv zeta.
  change (la_solve la m (mm m (diagm s) Vt)
    (mm (m + m * (na * jv)) (tr U) (vcat m (fun i j => y i j - mf m 1%nat y) (flat (na * jv) (last2 jv yd))))) with (fst f).
  assert (Hmu : snd f = mf m 1%nat y) by reflexivity. rewrite <- Hmu. set (c := fst f). set (mu := snd f).
  unfold Rdiv. rewrite !(Rmult_comm (/ INR _)). f_equal.
  - f_equal. apply sum_ext. intros i Hi. f_equal. unfold predict_ol_y. ring.
  - f_equal. f_equal. rewrite sum_block. apply sum_ext. intros t Ht. apply sum_ext. intros a Ha. apply sum_ext. intros w Hw.
    f_equal. unfold predict_ol_yd.
    replace ((t * na + a) * jv + w)%nat with (t * (na * jv) + (a * jv + w))%nat by lia.
    f_equal. unfold flat, last2.
    assert (a * jv + w < na * jv)%nat by now apply blk_lt.
    rewrite blk_div, blk_mod by auto. now rewrite blk_div, blk_mod.
Qed.

(** ** an instance: one point, two derivatives *)
Definition ex_C (sigma : R) (x : Mat) (jac : Ten) : Mat :=
  vcat 1 (A_lhs 3 gp_kernel sigma x x true) (d0kj 1 1 3 2 gp_kernel x x jac).
Lemma ex_svd : forall sigma x jac, exists U s Vt, is_svd (1 + 1 * 2) 1 (ex_C sigma x jac) U s Vt.
Proof.
  intros sigma x jac. set (C := ex_C sigma x jac). set (q := sum 3 (fun i => C i O ^ 2)).
  assert (P0 : 0 < C O O).
  { unfold C, ex_C, vcat. simpl Nat.ltb. cbv iota.
    exact (pd_diag 1 _ (A_pd 3 gp_kernel sigma x 1 (proj1 gp_kernel_ok)) O Nat.lt_0_1). }
  assert (Q : 0 < q).
  { unfold q. apply sum_pos; [intros; apply pow2_ge_0|]. exists O. split; [lia|]. apply pow_lt; auto. }
  assert (SQ : sqrt q * sqrt q = q) by (apply sqrt_sqrt; lra).
  assert (SP : 0 < sqrt q) by now apply sqrt_lt_R0.
  exists (fun i _ => C i O / sqrt q), (fun _ => sqrt q), (fun _ _ => 1). repeat split.
  - intros i j Hi Hj. assert (i = O) by lia. assert (j = O) by lia. subst. unfold eye. rewrite delta_same. unfold mm, tr.
    rewrite (sum_ext _ _ (fun i => C i O ^ 2 * / (sqrt q * sqrt q))) by (intros; field; lra).
    rewrite sum_scal_r. change (1 + 1 * 2)%nat with 3%nat. fold q. rewrite SQ. field. lra.
  - intros i j Hi Hj. assert (i = O) by lia. assert (j = O) by lia. subst. unfold eye. rewrite delta_same. unfold mm, tr. cbn [sum]. ring.
  - intros i j Hi Hj. assert (j = O) by lia. subst. cbn [sum]. field. lra.
  - intros. lra.
Qed.

(** ** the covariance returned by predict_ol *)
Lemma ol_cov_prior : forall la, linalg_ok la -> forall m n nf nd k sigma xt x, all_atoms (fun _ a => psd_atom a) k -> wf nf k ->
  (n <= n * nd)%nat -> meq n n (predict_ol_cov la m n nf nd k sigma xt x (fun _ _ _ => 0)) (kk nf k x x).
Proof.
  intros la ok m n nf nd k sigma xt x HP W Hn i j Hi Hj. unfold predict_ol_cov. cbv zeta.
  set (C := A_lhs nf k sigma xt xt true).
  pose proof (ok_chol la ok m C (A_sym nf k sigma xt m) (A_pd nf k sigma xt m HP)) as HC.
  pose proof (ok_tri la ok m (n * nd) (la_chol la m C) (d1kj m n nf nd k xt x (fun _ _ _ => 0))
    (chol_lower _ _ _ HC) (chol_diag_nz _ _ _ HC)) as HG.
  set (G := la_tri la m (la_chol la m C) (d1kj m n nf nd k xt x (fun _ _ _ => 0))) in *.
  assert (Z : forall a q, (a < m)%nat -> (q < n * nd)%nat -> G a q = 0).
  { intros a q Ha Hq.
    assert (V : veq m (mv m (la_chol la m C) (fun l => G l q)) (mv m (la_chol la m C) (fun _ => 0))).
    { intros b Hb. change (mv m (la_chol la m C) (fun l => G l q) b) with (mm m (la_chol la m C) G b q).
      rewrite HG by auto. unfold mv. rewrite sum_zero_ext by (intros; ring).
      destruct (blk_eq n nd q Hq) as [t [u [Ht [Hu ->]]]]. rewrite d1kj_E0 by auto.
      unfold E0. apply sum_zero_ext. intros f Hf. unfold jcol. ring. }
    exact (tri_unique m _ _ _ (chol_lower _ _ _ HC) (chol_diag_nz _ _ _ HC) V a Ha). }
  unfold A_lhs, mm, tr. rewrite (sum_zero_ext m (fun a => G a i * G a j)); [ring|].
  intros a Ha. rewrite Z by (auto; lia). ring.
Qed.
Lemma ol_cov_not_posterior : forall la, linalg_ok la -> forall nf k sigma (x : Mat), all_atoms (fun _ a => psd_atom a) k -> wf nf k ->
  kernel_at nf k (x O) (x O) <> 0 ->
  predict_ol_cov la 1 1 nf 1 k sigma x x (fun _ _ _ => 0) O O <> predict_cov la 1 nf k sigma x x O O.
Proof.
  intros la ok nf k sigma x HP W Hk. rewrite <- (kk_at nf k x x O O) in Hk.
  rewrite (ol_cov_prior la ok 1 1 nf 1 k sigma x x HP W) by lia.
  set (q := kk nf k x x O O) in *.
  assert (Q0 : 0 <= q) by exact (psd_diag 1 _ (kk_psd nf k 1 x HP) O Nat.lt_0_1).
  assert (Hs : 0 < sigma ^ 2 + / 10 ^ 10) by exact (noise_pos sigma). set (e := sigma ^ 2 + / 10 ^ 10) in *.
  assert (HA : forall i j, (i < 1)%nat -> (j < 1)%nat -> A_lhs nf k sigma x x true i j = q + e).
  { intros i j Hi Hj. assert (i = O) by lia. assert (j = O) by lia. subst. unfold A_lhs, add_diag, eye. rewrite delta_same.
    unfold q, e, jit10. ring. }
  rewrite (predict_cov_formula la ok nf k sigma HP 1 1 x x (fun _ _ => q / (q + e))); [|intros i j Hi Hj|auto|auto].
  - unfold mm, tr. cbn [sum]. fold q. intro X.
    assert (Y : q * (q / (q + e)) = 0) by lra. apply Rmult_integral in Y. destruct Y as [Y|Y]; [auto|].
    unfold Rdiv in Y. apply Rmult_integral in Y. destruct Y as [Y|Y]; [auto|].
    apply (Rinv_neq_0_compat (q + e)); [lra|exact Y].
  - unfold mm. cbn [sum]. rewrite HA by auto. assert (i = O) by lia. assert (j = O) by lia. subst. fold q. field. lra.
Qed.
Lemma ex_ol_kernel : kernel_at 1 lin (ones O) (ones O) <> 0.
Proof. rewrite <- (kk_at 1 lin ones ones O O), lin_kk. unfold ones. lra. Qed.
