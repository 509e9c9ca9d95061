(** The iterative likelihoods with their stochastic log-determinant. *)
From Coq Require Import Reals Arith Lia Lra List FunctionalExtensionality.
From Verif Require Import Base.Sums Base.Mat Base.PSD Model.PyDict Model.State Model.Arrays Model.Kernels Model.Operations Model.LinAlg Model.RPCholesky
  Model.Priors Model.GPR Model.SGPR Model.GPRTD Model.Lanczos Model.Likelihood
  Spec.KernelSpec Spec.GPSpec Spec.SparseSpec Spec.Det Spec.MVN Spec.LanczosSpec
  Proofs.LinAlgFacts Proofs.KernelSym Proofs.KernelDerivs Proofs.JetPSD Proofs.GPRFacts Proofs.GPRCov Proofs.DetFacts Proofs.GPRLml Proofs.SGPRFacts Proofs.SGPRIter Proofs.SGPRCov Proofs.SGPRPack
  Proofs.LanczosLogdet Proofs.LanczosBias.
Import ListNotations.
Open Scope R_scope.

(** ** eigenvalues *)
Lemma eigen_qf_col : forall n A a P k, eigen n A a P -> (k < n)%nat -> qf n A (fun i => P i k) = a k.
Proof.
  intros n A a P k [_ [H2 H3]] Hk. rewrite qf_dot.
  rewrite (dot_ext n (fun i => P i k) (mv n A (fun i => P i k)) (fun i => P i k) (fun i => P i k * a k)); [|intros ? ?; reflexivity|intros i Hi; exact (H3 i k Hi Hk)].
  unfold dot. rewrite (sum_ext n _ (fun i => P i k * P i k * a k)) by (intros; ring). rewrite sum_scal_r.
  change (sum n (fun i => P i k * P i k)) with (mm n (tr P) P k k). rewrite (H2 k k Hk Hk). unfold eye. rewrite delta_same. ring.
Qed.
Lemma eigen_unit : forall n A a P k, eigen n A a P -> (k < n)%nat -> dot n (fun i => P i k) (fun i => P i k) = 1.
Proof.
  intros n A a P k [_ [H2 _]] Hk. change (mm n (tr P) P k k = 1). rewrite (H2 k k Hk Hk). unfold eye. now rewrite delta_same.
Qed.
Lemma e36 : / 10 ^ 36 <= / 10 ^ 10.
Proof. apply Rinv_le_contravar; [apply pow_lt; lra|]. apply Rle_pow; [lra|lia]. Qed.
Lemma eigen_low : forall n A a P, eigen n A a P -> (forall v, / 10 ^ 10 * dot n v v <= qf n A v) -> forall k, (k < n)%nat -> / 10 ^ 36 <= a k.
Proof.
  intros n A a P E H k Hk. specialize (H (fun i => P i k)). rewrite (eigen_qf_col n A a P k E Hk), (eigen_unit n A a P k E Hk) in H. pose proof e36. lra.
Qed.
Lemma noisy_low : forall n sigma K, psd n K -> forall v, / 10 ^ 10 * dot n v v <= qf n (noisy sigma K) v.
Proof.
  intros n sigma K H v. change (qf n (noisy sigma K) v) with (qf n (add_diag (sigma ^ 2 + / 10 ^ 10) K) v). rewrite qf_add_diag.
  specialize (H v). pose proof (dot_nonneg n v). pose proof (pow2_ge_0 sigma). nra.
Qed.

(** ** the estimate inside the likelihood *)
Lemma lml_iter_affine : forall n o c y l, (0 < n)%nat -> lml_iter_of n o c y l = lml_iter_of n o c y 0 + - / (2 * INR n) * l.
Proof. intros n o c y l H. unfold lml_iter_of. field. apply not_0_INR. lia. Qed.
Lemma lml_iter_anti : forall n o c y l l', (0 < n)%nat -> l <= l' -> lml_iter_of n o c y l' <= lml_iter_of n o c y l.
Proof.
  intros n o c y l l' H L. rewrite (lml_iter_affine n o c y l), (lml_iter_affine n o c y l') by auto.
  assert (0 < / (2 * INR n)) by (apply Rinv_0_lt_compat; assert (0 < INR n) by (now apply lt_0_INR); lra). nra.
Qed.
Lemma lml_iter_mean : forall ne N n o c y F, (0 < n)%nat ->
  probe_mean ne N (fun s => lml_iter_of n o c y (F s)) = lml_iter_of n o c y (probe_mean ne N F).
Proof.
  intros ne N n o c y F H. rewrite (probe_mean_ext ne N _ (fun s => lml_iter_of n o c y 0 + - / (2 * INR n) * F s)) by (intros; now apply lml_iter_affine).
  rewrite probe_mean_plus, probe_mean_const, probe_mean_scal. symmetry. now apply lml_iter_affine.
Qed.

Section Mean.
  Context (eigh : nat -> Mat -> Vec * Mat) (n nl ne : nat) (A : Mat) (matvec : Vec -> Vec) (draw : nat -> Vec) (a : Vec) (P : Mat).
  Hypothesis Hn : (0 < n)%nat.
  Hypothesis Hne : (0 < ne)%nat.
  Hypothesis Hnl : (0 < nl)%nat.
  Hypothesis EA : eigen n A a P.
  Hypothesis LO : forall v, / 10 ^ 10 * dot n v v <= qf n A v.
  Hypothesis MV : forall z i, (i < n)%nat -> matvec z i = mv n A z i.
  Hypothesis OK : forall s, is_sign n s -> probe_ok n nl matvec draw eigh s.
  Lemma mean_eq : forall d o c y, at_most d n a -> (d <= nl)%nat ->
    probe_mean ne n (fun s => lml_iter_of n o c y (lanczos_logdet eigh matvec ne n nl s draw)) = lml_iter_of n o c y (ln (det n A)).
  Proof.
    intros d o c y D Hd. rewrite lml_iter_mean by auto. f_equal. apply (logdet_unbiased n nl A matvec draw eigh a P d); auto. exact (eigen_low n A a P EA LO).
  Qed.
  Lemma mean_le : forall o c y,
    probe_mean ne n (fun s => lml_iter_of n o c y (lanczos_logdet eigh matvec ne n nl s draw)) <= lml_iter_of n o c y (ln (det n A)).
  Proof.
    intros o c y. rewrite lml_iter_mean by auto. apply lml_iter_anti; auto. apply (logdet_mean_over n nl A matvec draw eigh a P); auto. exact (eigen_low n A a P EA LO).
  Qed.
  Lemma wrap_eq : forall (G : Mat -> R) d o c y v, (forall s, G s = lml_iter_of n o c y (lanczos_logdet eigh matvec ne n nl s draw)) ->
    lml_iter_of n o c y (ln (det n A)) = v -> at_most d n a -> (d <= nl)%nat -> probe_mean ne n G = v.
  Proof.
    intros G d o c y v HG Hv D Hd. rewrite <- Hv, <- (mean_eq d o c y D Hd). apply probe_mean_ext. intros M _. apply HG.
  Qed.
  Lemma wrap_le : forall (G : Mat -> R) o c y v, (forall s, G s = lml_iter_of n o c y (lanczos_logdet eigh matvec ne n nl s draw)) ->
    lml_iter_of n o c y (ln (det n A)) = v -> probe_mean ne n G <= v.
  Proof.
    intros G o c y v HG Hv. rewrite <- Hv. apply (Rle_trans _ (probe_mean ne n (fun s => lml_iter_of n o c y (lanczos_logdet eigh matvec ne n nl s draw)))); [|apply mean_le].
    right. apply probe_mean_ext. intros M _. apply HG.
  Qed.
End Mean.
Lemma wrap_val : forall n o c y v D l, (0 < n)%nat -> lml_iter_of n o c y D = v -> lml_iter_of n o c y l = v + (D - l) / (2 * INR n).
Proof. intros n o c y v D l H <-. rewrite lml_iter_affine, (lml_iter_affine n o c y D) by auto. field. apply not_0_INR. lia. Qed.

Section Lik.
  Variable la : linalg.
  Hypothesis ok : linalg_ok la.
  Variables (eigh : nat -> Mat -> Vec * Mat) (normal : key -> nat -> Vec) (choose : key -> nat -> Vec -> nat).

  (** *** GPR *)
  Section GPRL.
    Variables (m nf : nat) (k : kexp) (sigma : R) (x y : Mat) (mf : nat -> nat -> Mat -> R).
    Hypothesis Hm : (0 < m)%nat.
    Hypothesis HP : all_atoms (fun _ a => psd_atom a) k.
    Hypothesis Hs : sigma <> 0.
    Let mvf := on_vector (Ax_lhs_fun m m nf k sigma x x true).
    Let A := noisy sigma (kk nf k x x).
    Lemma gpr_mv : forall z i, (i < m)%nat -> mvf z i = mv m A z i.
    Proof. intros z i Hi. unfold mvf, on_vector. rewrite Ax_mm by auto. reflexivity. Qed.
    Lemma gpr_as : forall ne nl key np kp, exists c y', lml_iter_of m 1 c y' (ln (det m A)) = lml_dense la m 1 nf k sigma x y mf /\
      forall rad, gpr_lml_iter la eigh rad normal choose ne nl key np kp m 1 nf k sigma x y mf = lml_iter_of m 1 c y' (logdet_key eigh rad normal mvf ne m nl key).
    Proof.
      intros ne nl key np kp. eexists. eexists. split; [|intro rad; reflexivity].
      pose proof (fit_iter_eq la ok (choose kp) m 1 nf k sigma x y mf np HP Hs) as [E1 E2]. set (f := fit_iter la (choose kp) m 1 nf k sigma x y mf np) in *.
      rewrite E2. change (snd (fit_dense la m 1 nf k sigma x y mf)) with (mf m 1%nat y). apply (lml_iter_eq la ok); auto.
      eapply meq_trans; [|apply (fit_dense_solves la ok m 1 nf k sigma x y mf HP)]. apply mm_ext; [apply meq_refl|exact E1].
    Qed.
    Lemma gpr_error : forall rad ne nl key np kp,
      gpr_lml_iter la eigh rad normal choose ne nl key np kp m 1 nf k sigma x y mf
      = lml_dense la m 1 nf k sigma x y mf + (ln (det m A) - logdet_key eigh rad normal mvf ne m nl key) / (2 * INR m).
    Proof. intros rad ne nl key np kp. destruct (gpr_as ne nl key np kp) as [c [y' [H1 H2]]]. rewrite H2. now apply wrap_val. Qed.
    Lemma gpr_unbiased : forall ne nl key np kp a P d, (0 < ne)%nat -> (0 < nl)%nat -> eigen m A a P -> at_most d m a -> (d <= nl)%nat ->
      (forall s, is_sign m s -> probe_ok m nl mvf (key_draws normal key m) eigh s) ->
      probe_mean ne m (fun signs => gpr_lml_iter la eigh (fun _ _ _ => signs) normal choose ne nl key np kp m 1 nf k sigma x y mf)
      = lml_dense la m 1 nf k sigma x y mf.
    Proof.
      intros ne nl key np kp a P d Hne Hnl EA D Hd OK. destruct (gpr_as ne nl key np kp) as [c [y' [H1 H2]]].
      apply (wrap_eq eigh m nl ne A mvf (key_draws normal key m) a P Hm Hne Hnl EA (noisy_low m sigma _ (kk_psd nf k m x HP)) gpr_mv OK _ d 1 c y'); auto.
      intro s. apply H2.
    Qed.
    Lemma gpr_below : forall ne nl key np kp a P, (0 < ne)%nat -> (0 < nl)%nat -> eigen m A a P ->
      (forall s, is_sign m s -> probe_ok m nl mvf (key_draws normal key m) eigh s) ->
      probe_mean ne m (fun signs => gpr_lml_iter la eigh (fun _ _ _ => signs) normal choose ne nl key np kp m 1 nf k sigma x y mf)
      <= lml_dense la m 1 nf k sigma x y mf.
    Proof.
      intros ne nl key np kp a P Hne Hnl EA OK. destruct (gpr_as ne nl key np kp) as [c [y' [H1 H2]]].
      apply (wrap_le eigh m nl ne A mvf (key_draws normal key m) a P Hm Hne Hnl EA (noisy_low m sigma _ (kk_psd nf k m x HP)) gpr_mv OK _ 1 c y'); auto.
      intro s. apply H2.
    Qed.
  End GPRL.

  (** *** GPR on derivatives *)
  Section GPRD.
    Variables (m nf nv : nat) (k : kexp) (sigma : R) (x : Mat) (jac : Ten) (y : Mat) (mf : nat -> nat -> Mat -> R).
    Hypothesis Hm : (0 < m * nv)%nat.
    Hypothesis HP : all_atoms (fun _ a => psd_atom a) k.
    Hypothesis W : wf nf k.
    Hypothesis L : ls_nonzero k.
    Hypothesis HD : dgram_ok k.
    Hypothesis Hs : sigma <> 0.
    Let mvf := on_vector (Ax_derivs_lhs_fun m m nf nv nv k sigma x jac x jac true).
    Let A := noisy sigma (d01kj m m nf nv nv k x x jac jac).
    Lemma gprd_mv : forall z i, (i < m * nv)%nat -> mvf z i = mv (m * nv) A z i.
    Proof. intros z i Hi. unfold mvf, on_vector. rewrite Axd_mm by auto. reflexivity. Qed.
    Lemma gprd_as : forall ne nl key np kp, exists c y', lml_iter_of (m * nv) 1 c y' (ln (det (m * nv) A)) = lml_derivs_dense la m nf nv k sigma x jac y mf /\
      forall rad, gpr_lml_derivs_iter la eigh rad normal choose ne nl key np kp m nf nv k sigma x jac y mf
        = lml_iter_of (m * nv) 1 c y' (logdet_key eigh rad normal mvf ne (m * nv) nl key).
    Proof.
      intros ne nl key np kp. eexists. eexists. split; [|intro rad; reflexivity].
      pose proof (fit_derivs_iter_eq la ok (choose kp) m nf nv k sigma x jac y mf np HP W L HD Hs) as [E1 E2]. set (f := fit_derivs_iter la (choose kp) m nf nv k sigma x jac y mf np) in *.
      rewrite E2. change (snd (fit_derivs_dense la m nf nv k sigma x jac y mf)) with (mf (m * nv)%nat 1%nat (flat nv y)).
      apply (Rmult_eq_reg_l (INR (m * nv))); [|apply not_0_INR; lia]. unfold lml_derivs_dense. cbv zeta.
      rewrite (lml_of_gen la ok (m * nv) 1 _ _ (fst f) Hm).
      - unfold lml_iter_of. cbn [sum]. unfold mm, tr, dot. change (A_derivs_lhs m m nf nv nv k sigma x jac x jac true) with A. field. apply not_0_INR; lia.
      - apply Ad_sym; auto. intros s t _ _. now apply dgram_regular.
      - now apply Ad_pd.
      - eapply meq_trans; [|apply (fit_derivs_dense_solves la ok m nf nv k sigma x jac y mf HP W L HD)]. apply mm_ext; [apply meq_refl|exact E1].
    Qed.
    Lemma gprd_low : forall v, / 10 ^ 10 * dot (m * nv) v v <= qf (m * nv) A v.
    Proof. apply noisy_low. now apply dgram_psd. Qed.
    Lemma gprd_error : forall rad ne nl key np kp,
      gpr_lml_derivs_iter la eigh rad normal choose ne nl key np kp m nf nv k sigma x jac y mf
      = lml_derivs_dense la m nf nv k sigma x jac y mf + (ln (det (m * nv) A) - logdet_key eigh rad normal mvf ne (m * nv) nl key) / (2 * INR (m * nv)).
    Proof. intros rad ne nl key np kp. destruct (gprd_as ne nl key np kp) as [c [y' [H1 H2]]]. rewrite H2. now apply wrap_val. Qed.
    Lemma gprd_unbiased : forall ne nl key np kp a P d, (0 < ne)%nat -> (0 < nl)%nat -> eigen (m * nv) A a P -> at_most d (m * nv) a -> (d <= nl)%nat ->
      (forall s, is_sign (m * nv) s -> probe_ok (m * nv) nl mvf (key_draws normal key (m * nv)) eigh s) ->
      probe_mean ne (m * nv) (fun signs => gpr_lml_derivs_iter la eigh (fun _ _ _ => signs) normal choose ne nl key np kp m nf nv k sigma x jac y mf)
      = lml_derivs_dense la m nf nv k sigma x jac y mf.
    Proof.
      intros ne nl key np kp a P d Hne Hnl EA D Hd OK. destruct (gprd_as ne nl key np kp) as [c [y' [H1 H2]]].
      apply (wrap_eq eigh (m * nv) nl ne A mvf (key_draws normal key (m * nv)) a P Hm Hne Hnl EA gprd_low gprd_mv OK _ d 1 c y'); auto.
      intro s. apply H2.
    Qed.
    Lemma gprd_below : forall ne nl key np kp a P, (0 < ne)%nat -> (0 < nl)%nat -> eigen (m * nv) A a P ->
      (forall s, is_sign (m * nv) s -> probe_ok (m * nv) nl mvf (key_draws normal key (m * nv)) eigh s) ->
      probe_mean ne (m * nv) (fun signs => gpr_lml_derivs_iter la eigh (fun _ _ _ => signs) normal choose ne nl key np kp m nf nv k sigma x jac y mf)
      <= lml_derivs_dense la m nf nv k sigma x jac y mf.
    Proof.
      intros ne nl key np kp a P Hne Hnl EA OK. destruct (gprd_as ne nl key np kp) as [c [y' [H1 H2]]].
      apply (wrap_le eigh (m * nv) nl ne A mvf (key_draws normal key (m * nv)) a P Hm Hne Hnl EA gprd_low gprd_mv OK _ 1 c y'); auto.
      intro s. apply H2.
    Qed.
  End GPRD.

  (** *** SGPR *)
  Section SGPRL.
    Variables (m n nf : nat) (k : kexp) (sigma : R) (xl x y : Mat) (mf : nat -> nat -> Mat -> R) (M : Mat).
    Hypothesis Hn : (0 < n)%nat.
    Hypothesis HP : all_atoms (fun _ a => psd_atom a) k.
    Hypothesis HM : nystrom m n (kk nf k xl xl) (kk nf k xl x) M.
    Let mvf := on_vector (sg_Hx_fun la m n nf k sigma xl x).
    Let A := noisy sigma M.
    Lemma sgpr_mv : forall z i, (i < n)%nat -> mvf z i = mv n A z i.
    Proof.
      intros z i Hi. unfold mvf, on_vector. rewrite (sg_Hx la) by auto. unfold mm, mv. apply sum_ext. intros j Hj. f_equal.
      pose proof (sg_C_nystrom la ok m n sigma _ _ M (kk_symm nf k m xl) (kk_psd nf k m xl HP) HM) as E1. cbv zeta in E1.
      pose proof (sg_C_nystrom la ok m n sigma _ _ _ (kk_symm nf k m xl) (kk_psd nf k m xl HP) (H_nystrom la ok m n _ (kk nf k xl x) (kk_psd nf k m xl HP))) as E2. cbv zeta in E2.
      unfold A. rewrite <- (E1 i j Hi Hj), <- (E2 i j Hi Hj). reflexivity.
    Qed.
    Lemma sgpr_low : forall v, / 10 ^ 10 * dot n v v <= qf n A v.
    Proof. apply noisy_low. exact (proj2 (nystrom_psd m n _ _ M (kk_symm nf k m xl) (kk_psd nf k m xl HP) HM)). Qed.
    Lemma sgpr_as : forall ne nl key, exists c y', lml_iter_of n 1 c y' (ln (det n A)) = sg_lml_dense la m n 1 nf k sigma xl x y mf /\
      forall rad, sgpr_lml_iter la eigh rad normal ne nl key m n 1 nf k sigma xl x y mf = lml_iter_of n 1 c y' (logdet_key eigh rad normal mvf ne n nl key).
    Proof.
      intros ne nl key. eexists. eexists. split; [|intro rad; reflexivity].
      rewrite <- (sg_lml_iter_eq la ok m n nf k sigma xl x y mf M Hn HP HM). reflexivity.
    Qed.
    Lemma sgpr_error : forall rad ne nl key,
      sgpr_lml_iter la eigh rad normal ne nl key m n 1 nf k sigma xl x y mf
      = sg_lml_dense la m n 1 nf k sigma xl x y mf + (ln (det n A) - logdet_key eigh rad normal mvf ne n nl key) / (2 * INR n).
    Proof. intros rad ne nl key. destruct (sgpr_as ne nl key) as [c [y' [H1 H2]]]. rewrite H2. now apply wrap_val. Qed.
    Lemma sgpr_unbiased : forall ne nl key a P d, (0 < ne)%nat -> (0 < nl)%nat -> eigen n A a P -> at_most d n a -> (d <= nl)%nat ->
      (forall s, is_sign n s -> probe_ok n nl mvf (key_draws normal key n) eigh s) ->
      probe_mean ne n (fun signs => sgpr_lml_iter la eigh (fun _ _ _ => signs) normal ne nl key m n 1 nf k sigma xl x y mf)
      = sg_lml_dense la m n 1 nf k sigma xl x y mf.
    Proof.
      intros ne nl key a P d Hne Hnl EA D Hd OK. destruct (sgpr_as ne nl key) as [c [y' [H1 H2]]].
      apply (wrap_eq eigh n nl ne A mvf (key_draws normal key n) a P Hn Hne Hnl EA sgpr_low sgpr_mv OK _ d 1 c y'); auto.
      intro s. apply H2.
    Qed.
    Lemma sgpr_below : forall ne nl key a P, (0 < ne)%nat -> (0 < nl)%nat -> eigen n A a P ->
      (forall s, is_sign n s -> probe_ok n nl mvf (key_draws normal key n) eigh s) ->
      probe_mean ne n (fun signs => sgpr_lml_iter la eigh (fun _ _ _ => signs) normal ne nl key m n 1 nf k sigma xl x y mf)
      <= sg_lml_dense la m n 1 nf k sigma xl x y mf.
    Proof.
      intros ne nl key a P Hne Hnl EA OK. destruct (sgpr_as ne nl key) as [c [y' [H1 H2]]].
      apply (wrap_le eigh n nl ne A mvf (key_draws normal key n) a P Hn Hne Hnl EA sgpr_low sgpr_mv OK _ 1 c y'); auto.
      intro s. apply H2.
    Qed.
  End SGPRL.
End Lik.
