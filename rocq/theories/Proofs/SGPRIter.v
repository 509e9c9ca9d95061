(** The matrix-free operators of sparse regression. *)
From Coq Require Import Reals Arith Lia Lra List.
From Verif Require Import Base.Sums Base.Mat Base.PSD Model.Arrays Model.Kernels Model.LinAlg Model.Operations
  Model.RPCholesky Model.GPR Model.SGPR Spec.KernelSpec Spec.Det Spec.MVN Spec.GPSpec Spec.SparseSpec
  Proofs.Loops Proofs.KernelSym Proofs.KernelDerivs Proofs.LinAlgFacts Proofs.Matvec Proofs.JetPSD Proofs.GPRFacts Proofs.GPRCov Proofs.GPRLml Proofs.GPRPack Proofs.SGPRFacts.
Open Scope R_scope.

Lemma reshape_entry : forall d2 d3 T r c, (c < d2 * d3)%nat -> reshape_rows d2 d3 (d2 * d3) T r c = T r (c / d3)%nat (c mod d3)%nat.
Proof.
  intros d2 d3 T r c H. unfold reshape_rows. assert (d3 <> 0)%nat by nia. assert (d2 <> 0)%nat by nia. f_equal.
  - rewrite Nat.add_comm, Nat.div_add by nia. rewrite Nat.div_small by lia. lia.
  - replace (r * (d2 * d3) + c)%nat with (c + r * d2 * d3)%nat by ring. rewrite Nat.div_add by auto. rewrite Nat.mod_add by auto. apply Nat.mod_small.
    apply Nat.div_lt_upper_bound; lia.
  - replace (r * (d2 * d3) + c)%nat with (c + r * d2 * d3)%nat by ring. now rewrite Nat.mod_add.
Qed.
Lemma reshape_one : forall d T r c, (c < d)%nat -> reshape_rows 1 d d T r c = T r 0%nat c.
Proof.
  intros d T r c H. replace (reshape_rows 1 d d T r c) with (reshape_rows 1 d (1 * d) T r c) by (now rewrite Nat.mul_1_l).
  rewrite reshape_entry by lia. rewrite Nat.div_small, Nat.mod_small by lia. reflexivity.
Qed.

(** ** targets *)
Lemma sg_Ax_lhs : forall m n nf k sigma x1 x2 z i j, (i < m)%nat ->
  fst (sg_Ax_lhs_fun m n nf k sigma x1 x2) z i j = mm m (sg_lhs n sigma (kk nf k x1 x1) (kk nf k x1 x2)) z i j.
Proof.
  intros m n nf k sigma x1 x2 z i j Hi. unfold sg_Ax_lhs_fun. cbn [fst].
  rewrite (matvec_sum _ 1 m _ (samples m x1) true jit10 z (fun _ => 0)
    (fun r c => kk nf k x1 x1 r c * sigma ^ 2 + mm n (kk nf k x1 x2) (tr (kk nf k x1 x2)) r c)).
  - unfold mm at 2. apply sum_ext. intros c _. unfold sg_lhs, eye, delta. ring.
  - intros _. rewrite samples_len. lia.
  - intros s a c Hs Ha Hc. rewrite samples_len in Hs. rewrite samples_nth by auto. replace (s * 1 + a)%nat with s by lia. replace a with O by lia.
    rewrite reshape_one by auto. unfold stack2. rewrite !kk_at. f_equal. unfold mm. apply sum_ext. intros l _. unfold tr. rewrite (kk_sym nf k x2 (one_row (x1 c))). rewrite !kk_at. reflexivity.
  - rewrite samples_len. lia.
Qed.
Lemma sg_Ax_rhs : forall m n nf k sigma x1 x2 z i j, (i < m)%nat ->
  snd (sg_Ax_lhs_fun m n nf k sigma x1 x2) z i j = mm n (kk nf k x1 x2) z i j.
Proof.
  intros m n nf k sigma x1 x2 z i j Hi. unfold sg_Ax_lhs_fun. cbn [snd].
  rewrite (matvec_sum _ 1 n _ (samples m x1) false 0 z (fun _ => 0) (kk nf k x1 x2)).
  - unfold mm. apply sum_ext. intros. ring.
  - discriminate.
  - intros s a c Hs Ha Hc. rewrite samples_len in Hs. rewrite samples_nth by auto. replace (s * 1 + a)%nat with s by lia. rewrite !kk_at. reflexivity.
  - rewrite samples_len. lia.
Qed.
Lemma sg_predict_iter_eq : forall m n nf k sigma xl x c mu t j, (t < n)%nat -> sg_predict_iter m n nf k sigma xl x c mu t j = sg_predict_dense m nf k xl x c mu t j.
Proof. intros. unfold sg_predict_iter, sg_predict_dense. cbv zeta. now rewrite sg_Ax_rhs. Qed.

(** ** derivatives *)
(** where column c of the dense matrix is found *)
Definition shuffle (m nv c : nat) : nat := ((c mod m) * nv + c / m)%nat.
Lemma sg_Axd_lhs : forall m n nf nv nd k sigma x1 J1 x2 J2 z i j, wf nf k -> ls_nonzero k -> regular nf k m n x1 x2 -> (i < m * nv)%nat ->
  fst (sg_Ax_derivs_lhs_fun m n nf nv nd k sigma x1 J1 x2 J2) z i j
  = sum (m * nv) (fun c => (sigma ^ 2 * d01kj m m nf nv nv k x1 x1 J1 J1 i c
       + mm (n * nd) (d01kj m n nf nv nd k x1 x2 J1 J2) (tr (d01kj m n nf nv nd k x1 x2 J1 J2)) i (shuffle m nv c) + / 10 ^ 10 * delta i c) * z c j).
Proof.
  intros m n nf nv nd k sigma x1 J1 x2 J2 z i j W L Rg Hi. unfold sg_Ax_derivs_lhs_fun. cbn [fst].
  rewrite (matvec_sum _ nv (m * nv) _ (samples2 m x1 J1) true jit10 z (fun _ => 0, fun _ _ => 0)
    (fun r c => d01kj m m nf nv nv k x1 x1 J1 J1 r c * sigma ^ 2 + mm (n * nd) (d01kj m n nf nv nd k x1 x2 J1 J2) (tr (d01kj m n nf nv nd k x1 x2 J1 J2)) r (shuffle m nv c))).
  - apply sum_ext. intros c _. unfold delta, jit10. ring.
  - intros _. rewrite samples2_len. lia.
  - intros s a c Hs Ha Hc. rewrite samples2_len in Hs. rewrite samples2_nth by auto. cbn [fst snd].
    rewrite reshape_entry by lia. unfold stack2. cbn [fst snd]. f_equal.
    + f_equal. destruct (blk_eq m nv c Hc) as [t [u [Ht [Hu ->]]]]. replace a with (0 * nv + a)%nat at 2 by lia. rewrite !d01kj_E01 by (auto; lia). reflexivity.
    + unfold mm, tr. apply sum_ext. intros l Hl. destruct (blk_eq n nd l Hl) as [t [u [Ht [Hu ->]]]].
      assert (m <> 0)%nat by lia. assert (c mod m < m)%nat by (now apply Nat.mod_upper_bound). assert (c / m < nv)%nat by (apply Nat.div_lt_upper_bound; lia).
      unfold shuffle. f_equal.
      * replace a with (0 * nv + a)%nat at 2 by lia. rewrite !d01kj_E01 by (auto; lia). reflexivity.
      * rewrite (d01kj_trans m n nf nv nd k x1 x2 J1 J2 W L Rg) by (try nia). unfold tr.
        replace (c / m)%nat with (0 * nv + c / m)%nat at 2 by lia. rewrite !d01kj_E01 by (auto; lia). reflexivity.
  - rewrite samples2_len. auto.
Qed.
Lemma sg_Axd_rhs : forall m n nf nv nd k sigma x1 J1 x2 J2 z i j, wf nf k -> (i < m * nv)%nat ->
  snd (sg_Ax_derivs_lhs_fun m n nf nv nd k sigma x1 J1 x2 J2) z i j = mm (n * nd) (d01kj m n nf nv nd k x1 x2 J1 J2) z i j.
Proof.
  intros m n nf nv nd k sigma x1 J1 x2 J2 z i j W Hi. unfold sg_Ax_derivs_lhs_fun. cbn [snd].
  rewrite (matvec_sum _ nv (n * nd) _ (samples2 m x1 J1) false 0 z (fun _ => 0, fun _ _ => 0) (d01kj m n nf nv nd k x1 x2 J1 J2)).
  - unfold mm. apply sum_ext. intros. ring.
  - discriminate.
  - intros s a c Hs Ha Hc. rewrite samples2_len in Hs. rewrite samples2_nth by auto. cbn [fst snd].
    destruct (blk_eq n nd c Hc) as [t [u [Ht [Hu ->]]]]. replace a with (0 * nv + a)%nat at 2 by lia. rewrite !d01kj_E01 by (auto; lia). reflexivity.
  - rewrite samples2_len. auto.
Qed.
Lemma shuffle_id : forall m nv c, m = 1%nat \/ nv = 1%nat -> (c < m * nv)%nat -> shuffle m nv c = c.
Proof.
  intros m nv c [->| ->] H; unfold shuffle; [rewrite Nat.mod_1_r, Nat.div_1_r; lia|]. rewrite Nat.mod_small, Nat.div_small by lia. lia.
Qed.
Lemma sg_Axd_lhs_ok : forall m n nf nv nd k sigma x1 J1 x2 J2 z i j, wf nf k -> ls_nonzero k -> regular nf k m n x1 x2 -> m = 1%nat \/ nv = 1%nat -> (i < m * nv)%nat ->
  fst (sg_Ax_derivs_lhs_fun m n nf nv nd k sigma x1 J1 x2 J2) z i j
  = mm (m * nv) (sg_lhs (n * nd) sigma (d01kj m m nf nv nv k x1 x1 J1 J1) (d01kj m n nf nv nd k x1 x2 J1 J2)) z i j.
Proof.
  intros m n nf nv nd k sigma x1 J1 x2 J2 z i j W L Rg D Hi. rewrite sg_Axd_lhs by auto. unfold mm at 2. apply sum_ext. intros c Hc. rewrite shuffle_id by auto. reflexivity.
Qed.
Lemma sg_predict_derivs_iter_eq : forall m n nf nv nd k sigma xl jl x jac c mu t u, wf nf k -> (t < n)%nat -> (u < nd)%nat ->
  sg_predict_derivs_iter m n nf nv nd k sigma xl jl x jac c mu t u = sg_predict_derivs_dense m n nf nv nd k xl jl x jac c mu t u.
Proof. intros. unfold sg_predict_derivs_iter, sg_predict_derivs_dense, unflat. cbv zeta. rewrite sg_Axd_rhs by (auto; nia). reflexivity. Qed.
Lemma sg_predict_y_derivs_iter_eq : forall m n nf nv k xl jl x c mu t j, wf nf k -> (t < n)%nat ->
  sg_predict_y_derivs_iter m n nf nv k xl jl x c mu t j = sg_predict_y_derivs_dense m n nf nv k xl jl x c mu t j.
Proof. exact predict_y_derivs_iter_eq. Qed.

(** ** H *)
Section H.
  Variable la : linalg.
  Hypothesis ok : linalg_ok la.
  Lemma inv_solves : forall m n Kmm Kmn, psd m Kmm ->
    meq m n (mm m (fun i j => Kmm i j + jit10 * eye i j) (mm m (la_inv la m (fun i j => Kmm i j + jit10 * eye i j)) Kmn)) Kmn.
  Proof.
    intros m n Kmm Kmn HP i j Hi Hj. rewrite <- mm_assoc. rewrite (mm_ext m m n _ eye Kmn Kmn); auto using meq_refl; [now rewrite (mm_eye_l m n)|].
    apply (ok_inv la ok). apply pd_nonsing. apply (pd_ext m (add_diag jit10 Kmm)); [intros a b _ _; rewrite add_diag_entry; reflexivity|]. apply pd_add_diag; auto. apply jit10_pos.
  Qed.
  Definition H_of (m : nat) (Kmm Kmn : Mat) : Mat := mm m (tr Kmn) (mm m (la_inv la m (fun i j => Kmm i j + jit10 * eye i j)) Kmn).
  Lemma H_nystrom : forall m n Kmm Kmn, psd m Kmm -> nystrom m n Kmm Kmn (H_of m Kmm Kmn).
  Proof.
    intros m n Kmm Kmn HP. exists (mm m (la_inv la m (fun i j => Kmm i j + jit10 * eye i j)) Kmn). split; [|intros i j _ _; reflexivity].
    intros a j Ha Hj. pose proof (inv_solves m n Kmm Kmn HP a j Ha Hj) as E. set (W := mm m (la_inv la m (fun i j => Kmm i j + jit10 * eye i j)) Kmn) in *. rewrite <- E.
    transitivity (sum m (fun b => Kmm a b * W b j + delta a b * (jit10 * W b j))); [rewrite sum_plus, sum_delta_l by auto; reflexivity|].
    unfold mm at 1. apply sum_ext. intros b _. unfold eye. ring.
  Qed.
  Lemma sg_Hx : forall m n nf k sigma x1 x2 z i j, (i < n)%nat ->
    sg_Hx_fun la m n nf k sigma x1 x2 z i j = mm n (noisy sigma (H_of m (kk nf k x1 x1) (kk nf k x1 x2))) z i j.
  Proof.
    intros m n nf k sigma x1 x2 z i j Hi. unfold sg_Hx_fun. cbv zeta.
    rewrite (matvec_sum _ 1 n _ (samples n x2) true (sigma ^ 2 + jit10) z (fun _ => 0) (H_of m (kk nf k x1 x1) (kk nf k x1 x2))).
    - unfold mm at 1. reflexivity.
    - intros _. rewrite samples_len. lia.
    - intros s a c Hs Ha Hc. rewrite samples_len in Hs. rewrite samples_nth by auto. replace (s * 1 + a)%nat with s by lia. replace a with O by lia.
      rewrite reshape_one by auto. unfold stack2. rewrite mm_assoc. unfold H_of. unfold mm at 1 3. apply sum_ext. intros l _. f_equal.
      + unfold tr. rewrite kk_sym. rewrite !kk_at. reflexivity.
      + unfold mm. apply sum_ext. intros q _. f_equal. rewrite !kk_at. reflexivity.
    - rewrite samples_len. lia.
  Qed.
  Lemma sg_Hxd : forall m n nf nd k sigma x1 J1 x2 J2 z i j, wf nf k -> ls_nonzero k -> regular nf k m n x1 x2 -> (i < n * nd)%nat ->
    sg_Hx_derivs_fun la m n nf nd k sigma x1 J1 x2 J2 z i j
    = sum (n * nd) (fun c => (H_of (m * nd) (d01kj m m nf nd nd k x1 x1 J1 J1) (d01kj m n nf nd nd k x1 x2 J1 J2) i (shuffle n nd c)
        + (sigma ^ 2 + / 10 ^ 10) * delta i c) * z c j).
  Proof.
    intros m n nf nd k sigma x1 J1 x2 J2 z i j W L Rg Hi. unfold sg_Hx_derivs_fun. cbv zeta.
    rewrite (matvec_sum _ nd (n * nd) _ (samples2 n x2 J2) true (sigma ^ 2 + jit10) z (fun _ => 0, fun _ _ => 0)
      (fun r c => H_of (m * nd) (d01kj m m nf nd nd k x1 x1 J1 J1) (d01kj m n nf nd nd k x1 x2 J1 J2) r (shuffle n nd c))).
    - reflexivity.
    - intros _. rewrite samples2_len. lia.
    - intros s a c Hs Ha Hc. rewrite samples2_len in Hs. rewrite samples2_nth by auto. cbn [fst snd].
      replace (n * nd)%nat with (nd * n)%nat by lia. rewrite reshape_entry by lia. unfold stack2. cbn [fst snd]. rewrite mm_assoc. unfold H_of. unfold mm at 1 3. apply sum_ext. intros l Hl.
      assert (n <> 0)%nat by lia. assert (c mod n < n)%nat by (now apply Nat.mod_upper_bound). assert (c / n < nd)%nat by (apply Nat.div_lt_upper_bound; lia).
      f_equal.
      + unfold tr. destruct (blk_eq m nd l Hl) as [t [u [Ht [Hu ->]]]]. rewrite (d01kj_trans m n nf nd nd k x1 x2 J1 J2 W L Rg) by nia. unfold tr.
        replace a with (0 * nd + a)%nat at 2 by lia. rewrite !d01kj_E01 by (auto; lia). reflexivity.
      + unfold mm. apply sum_ext. intros q Hq. f_equal. destruct (blk_eq m nd q Hq) as [t [u [Ht [Hu ->]]]]. unfold shuffle.
        set (g := (c / n)%nat) in *. set (h := (c mod n)%nat) in *. rewrite (d01kj_E01 m n) by auto.
        replace (d01kj m 1 nf nd nd k x1 (one_row (x2 h)) J1 (one_jac (J2 h)) (t * nd + u)%nat g) with (d01kj m 1 nf nd nd k x1 (one_row (x2 h)) J1 (one_jac (J2 h)) (t * nd + u)%nat (0 * nd + g)%nat) by (f_equal; lia).
        rewrite d01kj_E01 by (auto; lia). reflexivity.
    - rewrite samples2_len. auto.
  Qed.
  (** ** fitting *)
  Lemma sg_fit_iter_eq : forall m n o nf k sigma xl x y mf, all_atoms (fun _ a => psd_atom a) k ->
    meq m o (fst (sg_fit_iter la m n o nf k sigma xl x y mf)) (fst (sg_fit_dense la m n o nf k sigma xl x y mf)) /\
    snd (sg_fit_iter la m n o nf k sigma xl x y mf) = snd (sg_fit_dense la m n o nf k sigma xl x y mf).
  Proof.
    intros m n o nf k sigma xl x y mf HP. split; [|reflexivity].
    apply (solve_unique m o (sg_lhs n sigma (kk nf k xl xl) (kk nf k xl x))); [now apply pd_nonsing, sg_lhs_pd, kk_psd|].
    eapply meq_trans; [|apply meq_sym, (sg_fit_solves la ok); auto].
    unfold sg_fit_iter. cbv zeta. cbn [fst]. set (Y := fun i j => y i j - mf n o y).
    apply (meq_trans m o _ (snd (sg_Ax_lhs_fun m n nf k sigma xl x) Y)); [|intros i j Hi Hj; now apply sg_Ax_rhs].
    apply (ok_cg la ok) with (P := eye).
    - now apply sg_lhs_sym, kk_symm.
    - now apply sg_lhs_pd, kk_psd.
    - intros i j _ _. apply delta_sym.
    - intros v Hv. rewrite qf_eye. now apply dot_pos.
    - intros Z i j Hi Hj. now apply sg_Ax_lhs.
    - intros Z. apply meq_sym, mm_eye_l.
  Qed.
  Lemma sg_fit_derivs_iter_eq : forall m n nf nv nd k sigma xl jl x y jac mf, all_atoms (fun _ a => psd_atom a) k -> wf nf k -> ls_nonzero k -> dgram_ok k ->
    m = 1%nat \/ nv = 1%nat ->
    meq (m * nv) 1 (fst (sg_fit_derivs_iter la m n nf nv nd k sigma xl jl x y jac mf)) (fst (sg_fit_derivs_dense la m n nf nv nd k sigma xl jl x y jac mf)).
  Proof.
    intros m n nf nv nd k sigma xl jl x y jac mf HP W L D One.
    assert (Rg : regular nf k m n xl x) by (intros ? ? _ _; now apply dgram_regular).
    pose proof (dgram_psd m nf nv k xl jl HP W L D) as PS.
    apply (solve_unique (m * nv) 1 (sg_lhs (n * nd) sigma (d01kj m m nf nv nv k xl xl jl jl) (d01kj m n nf nv nd k xl x jl jac))); [now apply pd_nonsing, sg_lhs_pd|].
    unfold sg_fit_derivs_iter, sg_fit_derivs_dense, sg_A_derivs_lhs. cbv zeta. cbn [fst snd]. set (Y := fun i j => flat nd y i j - mf (n * nd)%nat 1%nat (flat nd y)).
    eapply meq_trans; [|apply meq_sym, (sg_solves la ok); auto].
    apply (meq_trans _ _ _ (snd (sg_Ax_derivs_lhs_fun m n nf nv nd k sigma xl jl x jac) Y)); [|intros i j Hi Hj; now apply sg_Axd_rhs].
    apply (ok_cg la ok) with (P := eye).
    - apply sg_lhs_sym. now apply dd_symm.
    - now apply sg_lhs_pd.
    - intros i j _ _. apply delta_sym.
    - intros v Hv. rewrite qf_eye. now apply dot_pos.
    - intros Z i j Hi Hj. now apply sg_Axd_lhs_ok.
    - intros Z. apply meq_sym, mm_eye_l.
  Qed.
End H.
