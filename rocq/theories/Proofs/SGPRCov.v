(** Likelihoods and covariances of sparse regression. *)
From Coq Require Import Reals Arith Lia Lra List.
From Verif Require Import Base.Sums Base.Mat Base.PSD Model.Arrays Model.Kernels Model.LinAlg Model.Operations
  Model.RPCholesky Model.GPR Model.SGPR Spec.KernelSpec Spec.Det Spec.MVN Spec.GPSpec Spec.SparseSpec
  Proofs.Loops Proofs.KernelSym Proofs.KernelDerivs Proofs.LinAlgFacts Proofs.DetFacts Proofs.Matvec Proofs.JetPSD Proofs.RPChol
  Proofs.GPRFacts Proofs.GPRCov Proofs.GPRLml Proofs.GPRPack Proofs.SGPRFacts Proofs.SGPRIter Spec.SparseSpec.
Open Scope R_scope.

Section SCov.
  Variable la : linalg.
  Hypothesis ok : linalg_ok la.
  Variables (m n : nat) (sigma : R) (Kmm Kmn Knn : Mat).
  Hypothesis Hsym : sym m Kmm.
  Hypothesis Hsn : sym n Knn.
  Hypothesis Hpsd : psd m Kmm.
  Let A : Mat := fun i j => Kmm i j + jit10 * eye i j.
  Let C := sg_lhs n sigma Kmm Kmn.
  Let cov := sg_cov_of la m sigma Kmm C Kmn Knn.
  Lemma sA_ad : meq m m A (add_diag jit10 Kmm).
  Proof. intros i j _ _. reflexivity. Qed.
  Lemma sA_s : sym m A. Proof. intros i j Hi Hj. unfold A, eye. rewrite delta_sym. now rewrite Hsym. Qed.
  Lemma sA_p : pd m A. Proof. apply (pd_ext m (add_diag jit10 Kmm)); [apply meq_sym, sA_ad|]. apply pd_add_diag; auto. apply jit10_pos. Qed.
  Lemma tri_ok : forall B o K, sym m B -> pd m B -> meq m o (mm m (la_chol la m B) (la_tri la m (la_chol la m B) K)) K.
  Proof. intros B o K S P. pose proof (ok_chol la ok m B S P) as H. apply (ok_tri la ok); [exact (chol_lower _ _ _ H)|exact (chol_diag_nz _ _ _ H)]. Qed.
  Lemma gram_tri : forall B o K W, sym m B -> pd m B -> meq m o (mm m B W) K ->
    meq o o (mm m (tr (la_tri la m (la_chol la m B) K)) (la_tri la m (la_chol la m B) K)) (mm m (tr K) W).
  Proof. intros B o K W S P H. apply (chol_gram m o o B (la_chol la m B) _ K _ K W (ok_chol la ok m B S P)); auto using tri_ok. Qed.
  Lemma sC_s : sym m C. Proof. now apply sg_lhs_sym. Qed.
  Lemma sC_p : pd m C. Proof. now apply sg_lhs_pd. Qed.
  Lemma sg_cov_formula : forall B1 B2, meq m n (mm m A B1) Kmn -> meq m n (mm m C B2) Kmn ->
    meq n n cov (fun i j => Knn i j - mm m (tr Kmn) B1 i j + sigma ^ 2 * mm m (tr Kmn) B2 i j).
  Proof.
    intros B1 B2 H1 H2 i j Hi Hj. unfold cov, sg_cov_of. cbv zeta.
    apply f_equal2; apply f_equal2; try reflexivity; [exact (gram_tri A n Kmn B1 sA_s sA_p H1 i j Hi Hj)|exact (gram_tri C n Kmn B2 sC_s sC_p H2 i j Hi Hj)].
  Qed.
  Lemma sg_cov_sym : sym n cov.
  Proof.
    intros i j Hi Hj. unfold cov, sg_cov_of. cbv zeta. rewrite (Hsn i j Hi Hj). f_equal; f_equal; unfold mm, tr; apply sum_ext; intros; ring.
  Qed.
  Definition gv (B : Mat) (v : Vec) : R := qf n (mm m (tr (la_tri la m (la_chol la m B) Kmn)) (la_tri la m (la_chol la m B) Kmn)) v.
  Lemma gv_nonneg : forall B v, 0 <= gv B v.
  Proof.
    intros B v. unfold gv. rewrite qf_dot. rewrite (dot_ext n v _ v (mv m (tr (la_tri la m (la_chol la m B) Kmn)) (mv n (la_tri la m (la_chol la m B) Kmn) v)));
      [|intros ? ?; reflexivity|intros i _; apply mv_mm]. rewrite dot_mv_tr. apply dot_nonneg.
  Qed.
  Lemma gv_sol : forall B v b, sym m B -> pd m B -> veq m (mv m B b) (wv n Kmn v) -> gv B v = dot m b (wv n Kmn v).
  Proof.
    intros B v b S P Hb. pose proof (ok_solve la ok m n B Kmn (pd_nonsing m B P)) as HB. set (W := la_solve la m B Kmn) in *.
    unfold gv. rewrite (qf_ext n _ (mm m (tr Kmn) W) v v (gram_tri B n Kmn W S P HB)) by (intros ? ?; reflexivity).
    assert (E : veq m (mv n W v) b).
    { apply (pd_inj m B); [exact P|]. intros i Hi. rewrite Hb by auto. rewrite <- mv_mm. apply (mv_ext m n); auto. intros ? ?; reflexivity. }
    rewrite qf_dot. rewrite (dot_ext n v (mv n (mm m (tr Kmn) W) v) v (mv m (tr Kmn) (mv n W v))); [|intros ? ?; reflexivity|intros i _; apply mv_mm].
    rewrite dot_mv_tr, dot_comm. apply dot_ext; [exact E|]. intros i Hi. reflexivity.
  Qed.
  Lemma sol_exists : forall B w, pd m B -> exists b, veq m (mv m B b) w.
  Proof.
    intros B w P. exists (fun i => la_solve la m B (fun i _ => w i) i O). intros i Hi. exact (ok_solve la ok m 1 B (fun i _ => w i) (pd_nonsing m B P) i O Hi (le_n 1)).
  Qed.
  Lemma sg_cov_qf : forall v, qf n cov v = qf n Knn v - gv A v + sigma ^ 2 * gv C v.
  Proof. intros v. unfold gv. rewrite <- qf_msub, <- qf_mscal, <- qf_madd. reflexivity. Qed.
  Lemma sg_cov_le_prior : sigma ^ 2 <= 1 -> psd n (fun i j => Knn i j - cov i j).
  Proof.
    intros Hs v. change (0 <= qf n (msub Knn cov) v). rewrite qf_msub, sg_cov_qf.
    destruct (sol_exists A (wv n Kmn v) sA_p) as [b1 H1]. destruct (sol_exists C (wv n Kmn v) sC_p) as [b2 H2].
    rewrite (gv_sol A v b1 sA_s sA_p H1), (gv_sol C v b2 sC_s sC_p H2).
    pose proof (qf_min m A b1 (wv n Kmn v) (fun i => sigma ^ 2 * b2 i) sA_s (pd_psd m A sA_p) H1) as M.
    rewrite (qf_at_min _ _ _ _ H1) in M. rewrite qf_scal in M.
    assert (D : dot m (fun i => sigma ^ 2 * b2 i) (wv n Kmn v) = sigma ^ 2 * dot m b2 (wv n Kmn v)).
    { unfold dot. rewrite <- sum_scal_l. apply sum_ext. intros; ring. }
    rewrite D in M. pose proof (qf_at_min _ _ _ _ H2) as Q. unfold C in Q. rewrite sg_lhs_qf in Q.
    assert (QA : qf m A b2 = qf m Kmm b2 + jit10 * dot m b2 b2). { rewrite (qf_ext m A (add_diag jit10 Kmm) b2 b2 sA_ad) by (intros ? ?; reflexivity). apply qf_add_diag. }
    rewrite QA in M. pose proof (Hpsd b2). pose proof (dot_nonneg m b2). pose proof (dot_nonneg n (mv m (tr Kmn) b2)). pose proof jit10_pos. pose proof (pow2_ge_0 sigma).
    set (s := sigma ^ 2) in *. set (w := dot m b2 (wv n Kmn v)) in *. set (J := jit10 * dot m b2 b2) in *. assert (0 <= J) by (unfold J; apply Rmult_le_pos; lra).
    assert (s * s * (qf m Kmm b2 + J) <= s * w). { rewrite Rmult_assoc. apply Rmult_le_compat_l; auto. nra. }
    lra.
  Qed.
  Hypothesis joint : forall b v, 0 <= qf m Kmm b + 2 * dot m b (wv n Kmn v) + qf n Knn v.
  Lemma sg_cov_psd : psd n cov.
  Proof.
    intros v. rewrite sg_cov_qf. destruct (sol_exists A (wv n Kmn v) sA_p) as [b Hb]. rewrite (gv_sol A v b sA_s sA_p Hb).
    pose proof (joint (fun i => -1 * b i) v) as J. rewrite qf_scal in J.
    assert (D : dot m (fun i => -1 * b i) (wv n Kmn v) = - dot m b (wv n Kmn v)).
    { unfold dot. rewrite (sum_ext m _ (fun i => -1 * (b i * wv n Kmn v i))) by (intros; ring). rewrite sum_scal_l. ring. }
    rewrite D in J. pose proof (qf_at_min m A b (wv n Kmn v) Hb) as Q.
    rewrite (qf_ext m A (add_diag jit10 Kmm) b b sA_ad) in Q by (intros ? ?; reflexivity). rewrite qf_add_diag in Q.
    pose proof jit10_pos. pose proof (dot_nonneg m b). assert (0 <= jit10 * dot m b b) by (apply Rmult_le_pos; lra).
    pose proof (gv_nonneg C v). pose proof (pow2_ge_0 sigma). assert (0 <= sigma ^ 2 * gv C v) by (apply Rmult_le_pos; lra). lra.
  Qed.
End SCov.

(** restricting a covariance to the first n of n + p points *)
Lemma wv_pad : forall n p K v i, wv (n + p) K (fun j => if Nat.ltb j n then v j else 0) i = wv n K v i.
Proof.
  intros. unfold wv, mv. rewrite sum_app. rewrite (sum_zero_ext p).
  2:{ intros j Hj. rewrite (proj2 (Nat.ltb_ge (n + j) n)) by lia. ring. }
  rewrite Rplus_0_r. apply sum_ext. intros j Hj. rewrite (proj2 (Nat.ltb_lt _ n)) by auto. reflexivity.
Qed.
Lemma sg_cov_batch : forall la, linalg_ok la -> forall m n p sigma Kmm Kmn Knn Kmn' Knn',
  sym m Kmm -> psd m Kmm -> meq m n Kmn Kmn' -> meq n n Knn Knn' ->
  psd n (fun i j => sg_cov_of la m sigma Kmm (sg_lhs n sigma Kmm Kmn) Kmn Knn i j
                  - sg_cov_of la m sigma Kmm (sg_lhs (n + p) sigma Kmm Kmn') Kmn' Knn' i j).
Proof.
  intros la ok m n p sigma Kmm Kmn Knn Kmn' Knn' S P E1 E2 v.
  set (A := fun i j => Kmm i j + jit10 * eye i j). set (C := sg_lhs n sigma Kmm Kmn). set (C' := sg_lhs (n + p) sigma Kmm Kmn').
  set (v' := fun j => if Nat.ltb j n then v j else 0).
  change (0 <= qf n (msub (sg_cov_of la m sigma Kmm C Kmn Knn) (sg_cov_of la m sigma Kmm C' Kmn' Knn')) v). rewrite qf_msub.
  rewrite <- (qf_pad n p (sg_cov_of la m sigma Kmm C' Kmn' Knn') v). fold v'.
  unfold C at 1, C' at 1. rewrite !sg_cov_qf. fold A C C'.
  assert (Sa : sym m A) by now apply sA_s. assert (Pa : pd m A) by now apply sA_p.
  assert (Sc : sym m C) by now apply sC_s. assert (Pc : pd m C) by now apply sC_p.
  assert (Sc' : sym m C') by now apply sC_s. assert (Pc' : pd m C') by now apply sC_p.
  assert (EW : veq m (wv (n + p) Kmn' v') (wv n Kmn v)).
  { intros i Hi. unfold v'. rewrite wv_pad. unfold wv, mv. apply sum_ext. intros j Hj. now rewrite E1. }
  destruct (sol_exists la ok m A (wv n Kmn v) Pa) as [a Ha]. destruct (sol_exists la ok m C (wv n Kmn v) Pc) as [b Hb]. destruct (sol_exists la ok m C' (wv n Kmn v) Pc') as [c Hc].
  rewrite (gv_sol la ok m n Kmn A v a Sa Pa Ha), (gv_sol la ok m n Kmn C v b Sc Pc Hb).
  rewrite (gv_sol la ok m (n + p) Kmn' A v' a Sa Pa) by (intros i Hi; rewrite (Ha i Hi); symmetry; auto).
  rewrite (gv_sol la ok m (n + p) Kmn' C' v' c Sc' Pc') by (intros i Hi; rewrite (Hc i Hi); symmetry; auto).
  rewrite (dot_ext m a (wv (n + p) Kmn' v') a (wv n Kmn v)) by (auto; intros ? ?; reflexivity).
  rewrite (dot_ext m c (wv (n + p) Kmn' v') c (wv n Kmn v)) by (auto; intros ? ?; reflexivity).
  replace (qf (n + p) Knn' v') with (qf n Knn v).
  2:{ unfold v'. rewrite qf_pad. apply qf_ext; [exact E2|intros ? ?; reflexivity]. }
  (** c.w <= b.w *)
  pose proof (qf_min m C b (wv n Kmn v) c Sc (pd_psd m C Pc) Hb) as M. rewrite (qf_at_min _ _ _ _ Hb) in M.
  pose proof (qf_at_min _ _ _ _ Hc) as Q. unfold C' in Q. rewrite sg_lhs_qf in Q. unfold C in M. rewrite sg_lhs_qf in M.
  assert (G : dot n (mv m (tr Kmn) c) (mv m (tr Kmn) c) <= dot (n + p) (mv m (tr Kmn') c) (mv m (tr Kmn') c)).
  { unfold dot at 2. rewrite sum_app. replace (sum n (fun i => mv m (tr Kmn') c i * mv m (tr Kmn') c i)) with (dot n (mv m (tr Kmn) c) (mv m (tr Kmn) c)).
    - pose proof (sum_nonneg p (fun i => mv m (tr Kmn') c (n + i)%nat * mv m (tr Kmn') c (n + i)%nat) (fun i _ => Rle_0_sqr _)). lra.
    - unfold dot. apply sum_ext. intros i Hi. assert (Z : mv m (tr Kmn) c i = mv m (tr Kmn') c i) by (unfold mv, tr; apply sum_ext; intros l Hl; now rewrite E1). now rewrite Z. }
  pose proof (pow2_ge_0 sigma). assert (dot m c (wv n Kmn v) <= dot m b (wv n Kmn v)) by lra. nra.
Qed.

(** ** the likelihood *)
Section SLml.
  Variable la : linalg.
  Hypothesis ok : linalg_ok la.
  Lemma nystrom_psd : forall m n Kmm Kmn M, sym m Kmm -> psd m Kmm -> nystrom m n Kmm Kmn M -> sym n M /\ psd n M.
  Proof.
    intros m n Kmm Kmn M S P [W [HW HM]].
    assert (E : forall i j, (i < n)%nat -> (j < n)%nat -> M i j = bf m (add_diag jit10 Kmm) (fun a => W a i) (fun a => W a j)).
    { intros i j Hi Hj. rewrite (HM i j Hi Hj). rewrite <- (sym_add_diag m jit10 Kmm S) || idtac.
      transitivity (sum m (fun a => W a j * (sum m (fun b => Kmm a b * W b i) + jit10 * W a i))).
      - apply sum_ext. intros a Ha. rewrite <- (HW a i Ha Hi). unfold jit10. ring.
      - unfold bf.
        transitivity (sum m (fun a => sum m (fun b => W a j * add_diag jit10 Kmm a b * W b i))).
        + apply sum_ext. intros a Ha. rewrite Rmult_plus_distr_l. unfold add_diag.
          rewrite (sum_ext m (fun b => W a j * (Kmm a b + jit10 * delta a b) * W b i) (fun b => W a j * (Kmm a b * W b i) + delta a b * (W a j * jit10 * W b i))) by (intros; ring).
          rewrite sum_plus, sum_delta_l, sum_scal_l by auto. ring.
        + rewrite sum_swap. apply sum_ext. intros b Hb. apply sum_ext. intros a Ha. rewrite (sym_add_diag m jit10 Kmm S a b Ha Hb). ring. }
    split.
    - intros i j Hi Hj. rewrite !E by auto. apply bf_sym. now apply sym_add_diag.
    - intros v. apply Rle_trans with (qf m (add_diag jit10 Kmm) (mv n W v)); [apply psd_add_diag; auto; apply Rlt_le, jit10_pos|].
      apply Req_le. transitivity (qf n (mm m (tr W) (mm m (add_diag jit10 Kmm) W)) v).
      + rewrite !qf_dot. rewrite (dot_ext n v _ v (mv m (tr W) (mv n (mm m (add_diag jit10 Kmm) W) v))); [|intros ? ?; reflexivity|intros i _; apply mv_mm].
        rewrite (dot_mv_tr n m (tr W) v). apply dot_ext; [intros ? ?; reflexivity|]. intros i _. now rewrite mv_mm.
      + apply qf_ext; [|intros ? ?; reflexivity]. intros i j Hi Hj. rewrite E by auto. unfold bf, mm, tr. apply sum_ext. intros a _. rewrite <- sum_scal_l. apply sum_ext. intros; ring.
  Qed.
  Lemma sg_C_nystrom : forall m n sigma Kmm Kmn M, sym m Kmm -> psd m Kmm -> nystrom m n Kmm Kmn M ->
    let G := la_tri la m (la_chol la m (fun i j => Kmm i j + jit10 * eye i j)) Kmn in
    meq n n (fun i j => mm m (tr G) G i j + sigma ^ 2 * eye i j + jit10 * eye i j) (noisy sigma M).
  Proof.
    intros m n sigma Kmm Kmn M S P [W [HW HM]] G i j Hi Hj. unfold noisy. rewrite (HM i j Hi Hj). unfold G.
    rewrite (gram_tri la ok m (fun i j => Kmm i j + jit10 * eye i j) n Kmn W (sA_s m Kmm S) (sA_p m Kmm P)) by
      (try (intros a b Ha Hb; rewrite <- (HW a b Ha Hb); unfold mm; transitivity (sum m (fun l => Kmm a l * W l b + delta a l * (jit10 * W l b)));
        [apply sum_ext; intros; unfold eye; ring|rewrite sum_plus, sum_delta_l by auto; reflexivity]); auto).
    unfold mm, tr, jit10, eye. ring.
  Qed.
  Lemma noisy_sp : forall n sigma M, sym n M -> psd n M -> sym n (noisy sigma M) /\ pd n (noisy sigma M).
  Proof.
    intros n sigma M S P. assert (0 < sigma ^ 2 + jit10) by (pose proof (pow2_ge_0 sigma); pose proof jit10_pos; lra). split.
    - intros i j Hi Hj. exact (sym_add_diag n (sigma ^ 2 + jit10) M S i j Hi Hj).
    - apply (pd_add_diag n (sigma ^ 2 + jit10) M P H).
  Qed.
  Lemma sg_lml_gen : forall m n o sigma Kmm Kmn y M B, (0 < n)%nat -> sym m Kmm -> psd m Kmm -> nystrom m n Kmm Kmn M ->
    meq n o (mm n (noisy sigma M) B) y ->
    INR n * sg_lml_of la m n o sigma Kmm Kmn y
    = - / 2 * sum o (fun j => dot n (fun i => y i j) (fun i => B i j)) - / 2 * ln (det n (noisy sigma M)) - INR n * / 2 * ln (2 * PI).
  Proof.
    intros m n o sigma Kmm Kmn y M B Hn S P HM HB. pose proof (sg_C_nystrom m n sigma Kmm Kmn M S P HM) as E. cbv zeta in E. unfold sg_lml_of. cbv zeta.
    destruct (nystrom_psd m n Kmm Kmn M S P HM) as [SM PM]. destruct (noisy_sp n sigma M SM PM) as [SN PN].
    rewrite (lml_of_gen la ok n o _ y B Hn).
    - now rewrite (det_ext E).
    - intros i j Hi Hj. rewrite (E i j Hi Hj), (E j i Hj Hi). now apply SN.
    - apply (pd_ext n (noisy sigma M)); [now apply meq_sym|exact PN].
    - eapply meq_trans; [|exact HB]. apply mm_ext; [exact E|apply meq_refl].
  Qed.
  Lemma sg_lml_mvn : forall m n nf k sigma xl x y mf M b, (0 < n)%nat -> all_atoms (fun _ a => psd_atom a) k ->
    nystrom m n (kk nf k xl xl) (kk nf k xl x) M ->
    veq n (mv n (noisy sigma M) b) (fun i => y i O - mf n 1%nat y) ->
    INR n * sg_lml_dense la m n 1 nf k sigma xl x y mf = ln (mvn_pdf n (noisy sigma M) (fun i => y i O - mf n 1%nat y) b).
  Proof.
    intros m n nf k sigma xl x y mf M b Hn HP HM Hb. unfold sg_lml_dense. cbv zeta.
    destruct (nystrom_psd m n _ _ M (kk_symm nf k m xl) (kk_psd nf k m xl HP) HM) as [SM PM]. destruct (noisy_sp n sigma M SM PM) as [SN PN].
    rewrite (sg_lml_gen m n 1 sigma _ _ _ M (fun i _ => b i) Hn (kk_symm nf k m xl) (kk_psd nf k m xl HP) HM).
    - rewrite ln_mvn by (exact (proj1 (proj2 (det_chol (ok_chol la ok n _ SN PN))))). cbn [sum]. rewrite Rplus_0_l. reflexivity.
    - intros i j Hi Hj. assert (j = O) by lia. subst. exact (Hb i Hi).
  Qed.
  Lemma sg_lml_iter_eq : forall m n nf k sigma xl x y mf M, (0 < n)%nat -> all_atoms (fun _ a => psd_atom a) k ->
    nystrom m n (kk nf k xl xl) (kk nf k xl x) M ->
    sg_lml_iter la m n 1 nf k sigma xl x y mf (ln (det n (noisy sigma M))) = sg_lml_dense la m n 1 nf k sigma xl x y mf.
  Proof.
    intros m n nf k sigma xl x y mf M Hn HP HM. apply (Rmult_eq_reg_l (INR n)); [|apply not_0_INR; lia]. unfold sg_lml_dense, sg_lml_iter. cbv zeta.
    pose proof (kk_psd nf k m xl HP) as PK.
    set (H := H_of la m (kk nf k xl xl) (kk nf k xl x)). set (Y := fun i j => y i j - mf n 1%nat y).
    assert (HN : nystrom m n (kk nf k xl xl) (kk nf k xl x) H) by now apply (H_nystrom la ok).
    destruct (nystrom_psd m n _ _ M (kk_symm nf k m xl) PK HM) as [SM PM].
    destruct (nystrom_psd m n _ _ H (kk_symm nf k m xl) PK HN) as [SH PH]. destruct (noisy_sp n sigma H SH PH) as [SN PN].
    set (c := la_cg la n 1 (sg_Hx_fun la m n nf k sigma xl x) Y no_precond).
    assert (Hc : meq n 1 (mm n (noisy sigma H) c) Y).
    { apply (ok_cg la ok) with (P := eye); auto.
      - intros i j _ _. apply delta_sym.
      - intros v Hv. rewrite qf_eye. now apply dot_pos.
      - intros Z i j Hi Hj. now apply sg_Hx.
      - intros Z. apply meq_sym, mm_eye_l. }
    rewrite (sg_lml_gen m n 1 sigma _ _ Y H c Hn (kk_symm nf k m xl) PK HN Hc).
    assert (D : det n (noisy sigma M) = det n (noisy sigma H)).
    { apply det_ext. pose proof (sg_C_nystrom m n sigma _ _ M (kk_symm nf k m xl) PK HM) as E1. pose proof (sg_C_nystrom m n sigma _ _ H (kk_symm nf k m xl) PK HN) as E2.
      eapply meq_trans; [apply meq_sym, E1|exact E2]. }
    rewrite D. unfold lml_iter_of. cbn [sum]. unfold mm, tr, dot. field. apply not_0_INR; lia.
  Qed.
  (** random pivots *)
  Lemma rp_locs_lt : forall choose n nf k x nl, all_atoms (fun _ a => psd_atom a) k -> (forall i p, (choose i p < n)%nat) ->
    forall l, (l < nl)%nat -> (rp_locs choose n nf k x nl l < n)%nat.
  Proof.
    intros choose n nf k x nl HP HC l Hl. assert (0 < n)%nat by (specialize (HC O (fun _ => 0)); lia).
    destruct (rpcholesky_ok choose n nf x nl k HP HC) as [_ H1]. exact (proj1 (H1 l O Hl H)).
  Qed.
End SLml.
(** GPR: covariances of a batch are those of the points *)
Lemma gpr_batch : forall la, linalg_ok la -> forall nf k sigma, all_atoms (fun _ a => psd_atom a) k -> forall m n q xt x (p : nat -> nat), (forall i, (i < q)%nat -> (p i < n)%nat) ->
  meq q q (predict_cov la m nf k sigma xt (fun i => x (p i))) (fun i j => predict_cov la m nf k sigma xt x (p i) (p j)).
Proof.
  intros la ok nf k sigma HP m n q xt x p Hp i j Hi Hj.
  pose proof (noisy_sp m sigma (kk nf k xt xt) (kk_symm nf k m xt) (kk_psd nf k m xt HP)) as [SN PN].
  pose proof (ok_solve la ok m n _ (kk nf k xt x) (pd_nonsing m _ PN)) as HB. set (B := la_solve la m (noisy sigma (kk nf k xt xt)) (kk nf k xt x)) in *.
  rewrite (predict_cov_formula la ok nf k sigma HP m n xt x B HB (p i) (p j) (Hp i Hi) (Hp j Hj)).
  assert (H2 : meq m q (mm m (A_lhs nf k sigma xt xt true) (fun a b => B a (p b))) (kk nf k xt (fun i => x (p i)))).
  { intros a b Ha Hb. pose proof (HB a (p b) Ha (Hp b Hb)) as E. rewrite kk_at in *. exact E. }
  rewrite (predict_cov_formula la ok nf k sigma HP m q xt (fun i => x (p i)) _ H2 i j Hi Hj). rewrite !kk_at. f_equal. unfold mm, tr. apply sum_ext. intros a _. rewrite !kk_at. reflexivity.
Qed.
