(** Fitting, prediction and covariance of the exact GP (Model/GPR.v). *)
From Coq Require Import Reals Arith Lia Lra List FunctionalExtensionality.
From Coquelicot Require Import Coquelicot.
From Verif Require Import Base.Sums Base.Mat Base.PSD Model.Arrays Model.Kernels Model.LinAlg Model.Operations
  Model.RPCholesky Model.GPR Spec.KernelSpec Proofs.Loops Proofs.Contraction Proofs.KernelDerivs Proofs.KernelSym
  Proofs.KernelPropLemmas Proofs.LinAlgFacts Proofs.Matvec Proofs.Local Proofs.Jet2 Proofs.JetPSD.
Open Scope R_scope.

Lemma jit10_pos : 0 < jit10.
Proof. unfold jit10. apply Rinv_0_lt_compat, pow_lt. lra. Qed.
Lemma noise_pos : forall sigma, 0 < sigma ^ 2 + jit10.
Proof. intro. pose proof jit10_pos. pose proof (pow2_ge_0 sigma). lra. Qed.

(** ** the matrices of the linear systems *)
Lemma kk_psd : forall nf k n X, all_atoms (fun _ a => psd_atom a) k -> psd n (kk nf k X X).
Proof. intros nf k n X H c. exact (gram_psd_kk nf n X k H c). Qed.
Lemma A_sym : forall nf k sigma x n, sym n (A_lhs nf k sigma x x true).
Proof. intros. apply (sym_add_diag n (sigma ^ 2 + jit10) (kk nf k x x)). intros i j _ _. apply kk_sym. Qed.
Lemma A_pd : forall nf k sigma x n, all_atoms (fun _ a => psd_atom a) k -> pd n (A_lhs nf k sigma x x true).
Proof. intros. apply (pd_add_diag n (sigma ^ 2 + jit10) (kk nf k x x)); [now apply kk_psd|apply noise_pos]. Qed.
Lemma dgram_regular : forall nf k x y, dgram_ok k -> all_atoms (fun ad a => regular_pair nf ad a x y) k.
Proof.
  assert (E : forall nf k x y, exact k -> all_atoms (fun ad a => regular_pair nf ad a x y) k).
  { intros nf k x y. induction k as [ad a|k1 I1 k2 I2|k1 I1 k2 I2]; simpl; intro H.
    - destruct a; simpl in *; auto; contradiction.
    - destruct H; auto.
    - destruct H; auto. }
  intros nf k x y. induction k as [ad a|k1 I1 k2 I2|k1 I1 k2 I2]; intros [H|H]; auto; simpl in *.
  - destruct a; simpl in *; auto; contradiction.
  - destruct H; auto.
  - contradiction.
Qed.
Lemma d01kj_trans : forall n1 n2 nf nv1 nv2 k X1 X2 J1 J2, wf nf k -> ls_nonzero k -> regular nf k n1 n2 X1 X2 ->
  meq (n1 * nv1) (n2 * nv2) (d01kj n1 n2 nf nv1 nv2 k X1 X2 J1 J2) (tr (d01kj n2 n1 nf nv2 nv1 k X2 X1 J2 J1)).
Proof.
  intros n1 n2 nf nv1 nv2 k X1 X2 J1 J2 W L H i j Hi Hj.
  destruct (blk_eq n1 nv1 i Hi) as [s [v [Hs [Hv ->]]]]. destruct (blk_eq n2 nv2 j Hj) as [t [u [Ht [Hu ->]]]].
  unfold tr. rewrite !d01kj_E01 by auto. apply E01_sym; auto.
Qed.
Lemma Ad_sym : forall n nf nv k sigma x jac, wf nf k -> ls_nonzero k -> regular nf k n n x x ->
  sym (n * nv) (A_derivs_lhs n n nf nv nv k sigma x jac x jac true).
Proof.
  intros. apply (sym_add_diag (n * nv) (sigma ^ 2 + jit10) (d01kj n n nf nv nv k x x jac jac)).
  intros i j Hi Hj. now apply d01kj_trans.
Qed.
Lemma Ad_pd : forall n nf nv k sigma x jac,
  all_atoms (fun _ a => psd_atom a) k -> wf nf k -> ls_nonzero k -> dgram_ok k ->
  pd (n * nv) (A_derivs_lhs n n nf nv nv k sigma x jac x jac true).
Proof.
  intros. apply (pd_add_diag (n * nv) (sigma ^ 2 + jit10) (d01kj n n nf nv nv k x x jac jac)); [|apply noise_pos].
  now apply dgram_psd.
Qed.

(** ** fit *)
Lemma mm_add_diag : forall n s A B i j, (i < n)%nat -> mm n (add_diag s A) B i j = mm n A B i j + s * B i j.
Proof.
  intros n s A B i j Hi. unfold mm, add_diag.
  rewrite (sum_ext n _ (fun l => A i l * B l j + delta i l * (s * B l j))) by (intros; ring).
  rewrite sum_plus. f_equal. exact (sum_delta_l n i (fun l => s * B l j) Hi).
Qed.
Lemma resid_of_solve : forall n o s A c Y, meq n o (mm n (add_diag s A) c) Y ->
  forall i j, (i < n)%nat -> (j < o)%nat -> Y i j - mm n A c i j = s * c i j.
Proof. intros n o s A c Y H i j Hi Hj. rewrite <- H by auto. rewrite mm_add_diag by auto. ring. Qed.
Lemma solve_of_resid : forall n o s A c Y,
  (forall i j, (i < n)%nat -> (j < o)%nat -> Y i j - mm n A c i j = s * c i j) ->
  meq n o (mm n (add_diag s A) c) Y.
Proof. intros n o s A c Y H i j Hi Hj. rewrite mm_add_diag by auto. specialize (H i j Hi Hj). lra. Qed.

Lemma predict_dense_mm : forall m nf k sigma xt x c mu t j,
  predict_dense m nf k sigma xt x c mu t j = mu + mm m (kk nf k x xt) c t j.
Proof.
  intros. unfold predict_dense, A_lhs. f_equal. unfold mm, tr. apply sum_ext. intros. now rewrite kk_sym.
Qed.

Section Fit.
  Variable la : linalg.
  Hypothesis ok : linalg_ok la.

  Lemma fit_dense_solves : forall m o nf k sigma x y mf,
    all_atoms (fun _ a => psd_atom a) k ->
    meq m o (mm m (A_lhs nf k sigma x x true) (fst (fit_dense la m o nf k sigma x y mf)))
      (fun i j => y i j - mf m o y).
  Proof. intros. apply (ok_solve la ok). now apply pd_nonsing, A_pd. Qed.

  Lemma fit_residual : forall m o nf k sigma x y mf,
    all_atoms (fun _ a => psd_atom a) k ->
    let c := fst (fit_dense la m o nf k sigma x y mf) in
    let mu := snd (fit_dense la m o nf k sigma x y mf) in
    forall i j, (i < m)%nat -> (j < o)%nat ->
    y i j - predict_dense m nf k sigma x x c mu i j = (sigma ^ 2 + / 10 ^ 10) * c i j.
  Proof.
    intros m o nf k sigma x y mf H c mu i j Hi Hj. rewrite predict_dense_mm.
    pose proof (resid_of_solve m o (sigma ^ 2 + jit10) (kk nf k x x) c _ (fit_dense_solves m o nf k sigma x y mf H) i j Hi Hj) as Q.
    simpl in Q. change (sigma * (sigma * 1)) with (sigma ^ 2) in Q. unfold jit10 in Q. rewrite <- Q.
    change mu with (mf m o y). ring.
  Qed.
  Lemma fit_unique : forall m o nf k sigma x y mf c',
    all_atoms (fun _ a => psd_atom a) k ->
    (forall i j, (i < m)%nat -> (j < o)%nat ->
       y i j - predict_dense m nf k sigma x x c' (mf m o y) i j = (sigma ^ 2 + / 10 ^ 10) * c' i j) ->
    meq m o c' (fst (fit_dense la m o nf k sigma x y mf)).
  Proof.
    intros m o nf k sigma x y mf c' H E.
    apply (solve_unique m o (A_lhs nf k sigma x x true)); [now apply pd_nonsing, A_pd|].
    eapply meq_trans; [|apply meq_sym, fit_dense_solves; auto].
    apply (solve_of_resid m o (sigma ^ 2 + jit10) (kk nf k x x)). intros i j Hi Hj.
    specialize (E i j Hi Hj). rewrite predict_dense_mm in E. unfold jit10. rewrite <- E. ring.
  Qed.

  Lemma fit_derivs_dense_solves : forall m nf nv k sigma x jac y mf,
    all_atoms (fun _ a => psd_atom a) k -> wf nf k -> ls_nonzero k -> dgram_ok k ->
    meq (m * nv) 1 (mm (m * nv) (A_derivs_lhs m m nf nv nv k sigma x jac x jac true)
        (fst (fit_derivs_dense la m nf nv k sigma x jac y mf)))
      (fun i j => flat nv y i j - mf (m * nv)%nat 1%nat (flat nv y)).
  Proof. intros. apply (ok_solve la ok). now apply pd_nonsing, Ad_pd. Qed.

  Lemma pdd_mm : forall m n nf nv nd k sigma xt jt x jac c mu t u,
    wf nf k -> ls_nonzero k -> regular nf k m n xt x -> (t < n)%nat -> (u < nd)%nat ->
    predict_derivs_dense m n nf nv nd k sigma xt jt x jac c mu t u
    = mu + mm (m * nv) (d01kj n m nf nd nv k x xt jac jt) c (t * nd + u)%nat O.
  Proof.
    intros m n nf nv nd k sigma xt jt x jac c mu t u W L H Ht Hu. unfold predict_derivs_dense, unflat, A_derivs_lhs. f_equal.
    unfold mm, tr. apply sum_ext. intros r Hr.
    rewrite (d01kj_trans m n nf nv nd k xt x jt jac W L H r (t * nd + u)%nat Hr (blk_lt _ _ _ _ Ht Hu)). reflexivity.
  Qed.
  Lemma fit_derivs_residual : forall m nf nv k sigma x jac y mf,
    all_atoms (fun _ a => psd_atom a) k -> wf nf k -> ls_nonzero k -> dgram_ok k ->
    let c := fst (fit_derivs_dense la m nf nv k sigma x jac y mf) in
    let mu := snd (fit_derivs_dense la m nf nv k sigma x jac y mf) in
    forall s v, (s < m)%nat -> (v < nv)%nat ->
    y s v - predict_derivs_dense m m nf nv nv k sigma x jac x jac c mu s v
    = (sigma ^ 2 + / 10 ^ 10) * c (s * nv + v)%nat O.
  Proof.
    intros m nf nv k sigma x jac y mf HP W L HD c mu s v Hs Hv.
    rewrite pdd_mm; auto. 2:{ intros ? ? _ _. now apply dgram_regular. }
    pose proof (resid_of_solve (m * nv) 1 (sigma ^ 2 + jit10) (d01kj m m nf nv nv k x x jac jac) c _
      (fit_derivs_dense_solves m nf nv k sigma x jac y mf HP W L HD) (s * nv + v)%nat O (blk_lt _ _ _ _ Hs Hv) (le_n 1)) as Q.
    unfold jit10 in Q. rewrite <- Q.
    change mu with (mf (m * nv)%nat 1%nat (flat nv y)).
    assert (F : flat nv y (s * nv + v)%nat O = y s v) by (unfold flat; now rewrite blk_div, blk_mod).
    rewrite F. ring.
  Qed.
End Fit.

(** ** the low-rank preconditioner *)
Definition lowrank (p : nat) (sigma : R) (F : Mat) : Mat := add_diag (sigma ^ 2) (gram p F).
Lemma sq_pos : forall s, s <> 0 -> 0 < s ^ 2.
Proof. intros. now apply pow2_gt_0. Qed.
Lemma lowrank_pd : forall n p sigma F, sigma <> 0 -> pd n (lowrank p sigma F).
Proof. intros. apply pd_add_diag; [apply psd_gram|now apply sq_pos]. Qed.
Lemma lowrank_sym : forall n p sigma F, sym n (lowrank p sigma F).
Proof. intros. apply sym_add_diag, sym_gram. Qed.

Section Precond.
  Variable la : linalg.
  Hypothesis ok : linalg_ok la.
  Variables (m p : nat) (sigma : R) (F : Mat).
  Hypothesis Hs : sigma <> 0.
  Let W := la_inv la p (fun i j => sigma ^ 2 * eye i j + mm m (tr F) F i j).
  Definition pcm : Mat := fun i j => - / sigma ^ 2 * mm p F (mm p W (tr F)) i j + / sigma ^ 2 * eye i j.

  Lemma W_ok : meq p p (mm p (fun i j => sigma ^ 2 * eye i j + mm m (tr F) F i j) W) eye.
  Proof.
    apply (ok_inv la ok). apply pd_nonsing.
    apply (pd_ext p (add_diag (sigma ^ 2) (gram m (tr F)))).
    - intros i j Hi Hj. unfold add_diag, eye, gram, mm, tr. ring.
    - apply pd_add_diag; [apply psd_gram|now apply sq_pos].
  Qed.
  Lemma precond_pcm : forall z i j, (i < m)%nat -> precond_matvec la m p sigma F z i j = mm m pcm z i j.
  Proof.
    intros z i j Hi. unfold precond_matvec. fold W.
    unfold mm at 4. unfold pcm.
    rewrite (sum_ext m _ (fun l => - / sigma ^ 2 * (mm p F (mm p W (tr F)) i l * z l j) + delta i l * (/ sigma ^ 2 * z l j)))
      by (intros; unfold eye; ring).
    rewrite sum_plus, sum_scal_l. f_equal.
    - f_equal. change (mm p F (mm p W (mm m (tr F) z)) i j = mm m (mm p F (mm p W (tr F))) z i j).
      rewrite mm_assoc. unfold mm at 1 4. apply sum_ext. intros l Hl. f_equal. now rewrite mm_assoc.
    - symmetry. exact (sum_delta_l m i (fun l => / sigma ^ 2 * z l j) Hi).
  Qed.
  Lemma pcm_inv : is_inv m (lowrank p sigma F) pcm.
  Proof.
    intros i j Hi Hj. pose proof (sq_pos sigma Hs) as S2.
    set (Q := mm p W (tr F)).
    assert (E1 : mm m (gram p F) pcm i j = - / sigma ^ 2 * mm p F (mm p (mm m (tr F) F) Q) i j + / sigma ^ 2 * mm p F (tr F) i j).
    { unfold mm at 1. unfold pcm. fold Q.
      rewrite (sum_ext m _ (fun l => - / sigma ^ 2 * (gram p F i l * mm p F Q l j) + / sigma ^ 2 * (gram p F i l * delta l j)))
        by (intros; unfold eye; ring).
      rewrite sum_plus, !sum_scal_l. f_equal.
      - f_equal. change (mm m (mm p F (tr F)) (mm p F Q) i j = mm p F (mm p (mm m (tr F) F) Q) i j).
        rewrite mm_assoc. unfold mm at 1 4. apply sum_ext. intros l Hl. f_equal. now rewrite mm_assoc.
      - f_equal. exact (sum_delta_r' m j (gram p F i) Hj). }
    unfold lowrank. rewrite mm_add_diag by auto. rewrite E1. unfold pcm. fold Q.
    assert (E2 : mm p F (mm p (mm m (tr F) F) Q) i j + sigma ^ 2 * mm p F Q i j = mm p F (tr F) i j).
    { unfold mm at 1 4 5. rewrite <- sum_scal_l, <- sum_plus. apply sum_ext. intros l Hl.
      transitivity (F i l * mm p (fun i j => sigma ^ 2 * eye i j + mm m (tr F) F i j) Q l j).
      - transitivity (F i l * (mm p (mm m (tr F) F) Q l j + sigma ^ 2 * Q l j)); [ring|]. f_equal.
        unfold mm at 3.
        rewrite (sum_ext p _ (fun b => mm m (tr F) F l b * Q b j + delta l b * (sigma ^ 2 * Q b j)))
          by (intros; unfold eye; ring).
        rewrite sum_plus. f_equal. symmetry. exact (sum_delta_l p l (fun b => sigma ^ 2 * Q b j) Hl).
      - f_equal. unfold Q. rewrite <- mm_assoc.
        transitivity (mm p eye (tr F) l j).
        + unfold mm at 1 4. apply sum_ext. intros b Hb. f_equal. now apply W_ok.
        + exact (sum_delta_l p l (fun b => tr F b j) Hl). }
    transitivity (- / sigma ^ 2 * (mm p F (mm p (mm m (tr F) F) Q) i j + sigma ^ 2 * mm p F Q i j)
      + / sigma ^ 2 * mm p F (tr F) i j + sigma ^ 2 * / sigma ^ 2 * eye i j).
    - ring.
    - rewrite E2. field. lra.
  Qed.
  Lemma pcm_sym : sym m pcm.
  Proof. exact (inv_sym m _ pcm (lowrank_sym m p sigma F) (lowrank_pd m p sigma F Hs) pcm_inv). Qed.
  Lemma pcm_pd : pd m pcm.
  Proof. exact (inv_pd m _ pcm (lowrank_sym m p sigma F) (lowrank_pd m p sigma F Hs) pcm_inv). Qed.
  Lemma precond_right : forall o z, meq m o (mm m (lowrank p sigma F) (precond_matvec la m p sigma F z)) z.
  Proof.
    intros o z i j Hi Hj.
    transitivity (mm m (lowrank p sigma F) (mm m pcm z) i j).
    - unfold mm at 1 2. apply sum_ext. intros l Hl. f_equal. now apply precond_pcm.
    - rewrite <- mm_assoc. transitivity (mm m eye z i j); [|now apply (mm_eye_l m o)].
      unfold mm at 1 3. apply sum_ext. intros l Hl. f_equal. now apply pcm_inv.
  Qed.
  Lemma precond_left : forall o z, meq m o (precond_matvec la m p sigma F (mm m (lowrank p sigma F) z)) z.
  Proof.
    intros o z i j Hi Hj. rewrite precond_pcm by auto. rewrite <- mm_assoc.
    transitivity (mm m eye z i j); [|now apply (mm_eye_l m o)].
    unfold mm at 1 3. apply sum_ext. intros l Hl. f_equal.
    now apply (pd_inv_left m _ _ (lowrank_pd m p sigma F Hs) pcm_inv).
  Qed.
End Precond.

(** ** matrix-free operators *)
Lemma samples_len : forall n x, length (samples n x) = n.
Proof. intros. unfold samples. now rewrite map_length, seq_length. Qed.
Lemma samples_nth : forall n x s d, (s < n)%nat -> nth s (samples n x) d = x s.
Proof.
  intros n x s d H. unfold samples. rewrite (nth_indep _ d (x O)) by now rewrite map_length, seq_length.
  rewrite map_nth, seq_nth by auto. reflexivity.
Qed.
Lemma samples2_len : forall n x J, length (samples2 n x J) = n.
Proof. intros. unfold samples2. now rewrite map_length, seq_length. Qed.
Lemma samples2_nth : forall n x J s d, (s < n)%nat -> nth s (samples2 n x J) d = (x s, J s).
Proof.
  intros n x J s d H. unfold samples2.
  rewrite (nth_indep _ d ((fun s => (x s, J s)) O)) by now rewrite map_length, seq_length.
  rewrite (map_nth (fun s => (x s, J s))), seq_nth by auto. reflexivity.
Qed.
Lemma Ax_mm : forall n1 n2 nf k sigma x1 x2 noise z i j, (noise = true -> (n1 <= n2)%nat) -> (i < n1)%nat ->
  Ax_lhs_fun n1 n2 nf k sigma x1 x2 noise z i j = mm n2 (A_lhs nf k sigma x1 x2 noise) z i j.
Proof.
  intros n1 n2 nf k sigma x1 x2 noise z i j Hn Hi. unfold Ax_lhs_fun.
  rewrite (matvec_assembled 1 n2 _ (samples n1 x1) noise (sigma ^ 2 + jit10) z (fun _ => 0) (kk nf k x1 x2)).
  - destruct noise; reflexivity.
  - intro E. rewrite samples_len. specialize (Hn E). lia.
  - intros s a c Hs Ha Hc. rewrite samples_len in Hs. rewrite samples_nth by auto.
    replace (s * 1 + a)%nat with s by lia. rewrite !kk_at. reflexivity.
  - rewrite samples_len. lia.
Qed.
Lemma Axd_mm : forall n1 n2 nf nv1 nv2 k sigma x1 J1 x2 J2 noise z i j, wf nf k ->
  (noise = true -> (n1 <= n2)%nat /\ nv1 = nv2) -> (i < n1 * nv1)%nat ->
  Ax_derivs_lhs_fun n1 n2 nf nv1 nv2 k sigma x1 J1 x2 J2 noise z i j
  = mm (n2 * nv2) (A_derivs_lhs n1 n2 nf nv1 nv2 k sigma x1 J1 x2 J2 noise) z i j.
Proof.
  intros n1 n2 nf nv1 nv2 k sigma x1 J1 x2 J2 noise z i j W Hn Hi. unfold Ax_derivs_lhs_fun.
  rewrite (matvec_assembled nv1 (n2 * nv2) _ (samples2 n1 x1 J1) noise (sigma ^ 2 + jit10) z (fun _ => 0, fun _ _ => 0)
    (d01kj n1 n2 nf nv1 nv2 k x1 x2 J1 J2)).
  - destruct noise; reflexivity.
  - intro E. rewrite samples2_len. destruct (Hn E) as [H1 ->]. nia.
  - intros s a c Hs Ha Hc. rewrite samples2_len in Hs. rewrite samples2_nth by auto. simpl fst. simpl snd.
    destruct (blk_eq n2 nv2 c Hc) as [t [u [Ht [Hu ->]]]].
    replace a with (0 * nv1 + a)%nat at 2 by lia. rewrite !d01kj_E01 by (auto; lia). reflexivity.
  - now rewrite samples2_len.
Qed.
Lemma Kxd1_mm : forall n1 n2 nf nv k x1 x2 J2 z i j, wf nf k -> (i < n1)%nat ->
  Kx_derivs1_fun n1 n2 nf nv k x1 x2 J2 z i j = mm (n2 * nv) (d1kj n1 n2 nf nv k x1 x2 J2) z i j.
Proof.
  intros n1 n2 nf nv k x1 x2 J2 z i j W Hi. unfold Kx_derivs1_fun.
  rewrite (matvec_assembled 1 (n2 * nv) _ (samples n1 x1) false 0 z (fun _ => 0) (d1kj n1 n2 nf nv k x1 x2 J2)).
  - reflexivity.
  - discriminate.
  - intros s a c Hs Ha Hc. rewrite samples_len in Hs. rewrite samples_nth by auto.
    destruct (blk_eq n2 nv c Hc) as [t [u [Ht [Hu ->]]]].
    replace (s * 1 + a)%nat with s by lia. replace a with O by lia. rewrite !d1kj_E0 by (auto; lia). reflexivity.
  - rewrite samples_len. lia.
Qed.

Lemma predict_iter_eq : forall m n nf k sigma xt x c mu t j, (t < n)%nat ->
  predict_iter m n nf k sigma xt x c mu t j = predict_dense m nf k sigma xt x c mu t j.
Proof.
  intros. unfold predict_iter. rewrite Ax_mm by (auto; discriminate). now rewrite predict_dense_mm.
Qed.
Lemma predict_derivs_iter_eq : forall m n nf nv nd k sigma xt jt x jac c mu t u,
  wf nf k -> ls_nonzero k -> regular nf k m n xt x -> (t < n)%nat -> (u < nd)%nat ->
  predict_derivs_iter m n nf nv nd k sigma xt jt x jac c mu t u
  = predict_derivs_dense m n nf nv nd k sigma xt jt x jac c mu t u.
Proof.
  intros. rewrite pdd_mm by auto. unfold predict_derivs_iter, unflat.
  rewrite Axd_mm; auto; [discriminate|now apply blk_lt].
Qed.
Lemma predict_y_derivs_iter_eq : forall m n nf nv k xt jt x c mu t j,
  wf nf k -> (t < n)%nat ->
  predict_y_derivs_iter m n nf nv k xt jt x c mu t j = predict_y_derivs_dense m n nf nv k xt jt x c mu t j.
Proof.
  intros m n nf nv k xt jt x c mu t j W Ht. unfold predict_y_derivs_iter, predict_y_derivs_dense.
  rewrite Kxd1_mm by auto. f_equal. unfold mm, tr. apply sum_ext. intros r Hr.
  destruct (blk_eq m nv r Hr) as [s [v [Hs [Hv ->]]]]. now rewrite d1kj_E0, d0kj_E0 by auto.
Qed.
Lemma predict_derivs_jaccoef_eq : forall m n nf nv nd k sigma xt jt x jac c mu t u,
  wf nf k -> ls_nonzero k -> no_m52 k -> (t < n)%nat -> (u < nd)%nat ->
  predict_derivs_jaccoef m n nf nd k xt x jac mu (jaccoef_of nv c jt) t u
  = predict_derivs_dense m n nf nv nd k sigma xt jt x jac c mu t u.
Proof.
  intros m n nf nv nd k sigma xt jt x jac c mu t u W L M Ht Hu.
  unfold predict_derivs_jaccoef, predict_derivs_dense, unflat, A_derivs_lhs. f_equal.
  unfold mm, tr. rewrite sum_block. apply sum_ext. intros s Hs.
  rewrite d01kjc_ctr by auto. unfold jaccoef_of.
  rewrite (sum_ext nv _ (fun v => sum nf (fun f => sum nf (fun e => c (s * nv + v)%nat O * jt s f v * D01 nf k (xt s) (x t) f e * jac t e u)))).
  2:{ intros v Hv. rewrite d01kj_E01 by auto. unfold E01. rewrite <- sum_scal_r. apply sum_ext. intros f Hf.
      rewrite <- sum_scal_r. apply sum_ext. intros e He. unfold jcol. ring. }
  rewrite (sum_swap nv nf). apply sum_ext. intros f Hf. rewrite (sum_swap nv nf). apply sum_ext. intros e He.
  rewrite d01k_loc by auto. rewrite Rmult_assoc, <- sum_scal_r. apply sum_ext. intros. ring.
Qed.
Lemma predict_y_derivs_jaccoef_eq : forall m n nf nv k xt jt x c mu t j,
  wf nf k -> ls_nonzero k -> no_m52 k -> (t < n)%nat -> j = O ->
  predict_y_derivs_jaccoef m n nf k xt x mu (jaccoef_of nv c jt) t j
  = predict_y_derivs_dense m n nf nv k xt jt x c mu t j.
Proof.
  intros m n nf nv k xt jt x c mu t j W L M Ht ->.
  unfold predict_y_derivs_jaccoef, predict_y_derivs_dense. f_equal.
  unfold mm, tr. rewrite sum_block. apply sum_ext. intros s Hs.
  rewrite d0kjc_ctr by auto. unfold jaccoef_of.
  rewrite (sum_ext nv _ (fun v => sum nf (fun f => c (s * nv + v)%nat O * jt s f v * D0 nf k (xt s) (x t) f))).
  2:{ intros v Hv. rewrite d0kj_E0 by auto. unfold E0. rewrite <- sum_scal_r. apply sum_ext. intros f Hf. unfold jcol. ring. }
  rewrite (sum_swap nv nf). apply sum_ext. intros f Hf.
  rewrite d0k_loc by auto. now rewrite <- sum_scal_r.
Qed.

Section FitIter.
  Variable la : linalg.
  Hypothesis ok : linalg_ok la.
  Lemma fit_iter_eq : forall choose m o nf k sigma x y mf np,
    all_atoms (fun _ a => psd_atom a) k -> sigma <> 0 ->
    meq m o (fst (fit_iter la choose m o nf k sigma x y mf np)) (fst (fit_dense la m o nf k sigma x y mf))
    /\ snd (fit_iter la choose m o nf k sigma x y mf np) = snd (fit_dense la m o nf k sigma x y mf).
  Proof.
    intros choose m o nf k sigma x y mf np HP Hs. split; [|reflexivity].
    apply (solve_unique m o (A_lhs nf k sigma x x true)); [now apply pd_nonsing, A_pd|].
    eapply meq_trans; [|apply meq_sym, (fit_dense_solves la ok); auto].
    simpl. unfold precond_rpcholesky. set (F := fst (rpcholesky choose m nf x np k)).
    apply (ok_cg la ok) with (P := pcm la m np sigma F).
    - apply A_sym. - now apply A_pd. - now apply pcm_sym. - now apply pcm_pd.
    - intros Z i j Hi Hj. now apply Ax_mm.
    - intros Z i j Hi Hj. now apply precond_pcm.
  Qed.
  Lemma fit_derivs_iter_eq : forall choose m nf nv k sigma x jac y mf np,
    all_atoms (fun _ a => psd_atom a) k -> wf nf k -> ls_nonzero k -> dgram_ok k -> sigma <> 0 ->
    meq (m * nv) 1 (fst (fit_derivs_iter la choose m nf nv k sigma x jac y mf np))
      (fst (fit_derivs_dense la m nf nv k sigma x jac y mf))
    /\ snd (fit_derivs_iter la choose m nf nv k sigma x jac y mf np) = snd (fit_derivs_dense la m nf nv k sigma x jac y mf).
  Proof.
    intros choose m nf nv k sigma x jac y mf np HP W L HD Hs. split; [|reflexivity].
    apply (solve_unique (m * nv) 1 (A_derivs_lhs m m nf nv nv k sigma x jac x jac true)); [now apply pd_nonsing, Ad_pd|].
    eapply meq_trans; [|apply meq_sym, (fit_derivs_dense_solves la ok); auto].
    simpl. unfold precond_rpcholesky_derivs. set (F := fst (rpcholesky_derivs choose m nf nv x jac np k)).
    apply (ok_cg la ok) with (P := pcm la (m * nv) np sigma F).
    - apply Ad_sym; auto. intros ? ? _ _. now apply dgram_regular.
    - now apply Ad_pd. - now apply pcm_sym. - now apply pcm_pd.
    - intros Z i j Hi Hj. now apply Axd_mm.
    - intros Z i j Hi Hj. now apply precond_pcm.
  Qed.
End FitIter.
