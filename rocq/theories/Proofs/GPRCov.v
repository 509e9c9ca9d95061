(** Posterior covariances. *)
From Coq Require Import Reals Arith Lia Lra List FunctionalExtensionality.
From Coquelicot Require Import Coquelicot.
From Verif Require Import Base.Sums Base.Mat Base.PSD Model.Arrays Model.Kernels Model.LinAlg Model.Operations
  Model.RPCholesky Model.GPR Spec.KernelSpec Proofs.Loops Proofs.Contraction Proofs.KernelDerivs Proofs.KernelSym
  Proofs.KernelPropLemmas Proofs.LinAlgFacts Proofs.Matvec Proofs.Local Proofs.Jet2 Proofs.JetPSD Proofs.GPRFacts.
Open Scope R_scope.

(** the common form of all covariances *)
Definition cov_of (la : linalg) (m : nat) (C Kmn Knn : Mat) : Mat :=
  let G := la_tri la m (la_chol la m C) Kmn in fun i j => Knn i j - mm m (tr G) G i j.

Lemma add_diag_entry : forall s A i j, add_diag s A i j = A i j + s * delta i j.
Proof. reflexivity. Qed.

Section Cov.
  Variable la : linalg.
  Hypothesis ok : linalg_ok la.
  Variables (m n : nat) (Kmm Kmn Knn : Mat) (s : R).
  Hypothesis Hs : 0 < s.
  Hypothesis Hsym : sym m Kmm.
  Hypothesis Hsn : sym n Knn.
  Hypothesis Hpsd : psd m Kmm.
  Let A := add_diag s Kmm.
  Let cov := cov_of la m A Kmn Knn.

  Lemma A_s : sym m A. Proof. now apply sym_add_diag. Qed.
  Lemma A_p : pd m A. Proof. now apply pd_add_diag. Qed.
  Lemma G_ok : meq m n (mm m (la_chol la m A) (la_tri la m (la_chol la m A) Kmn)) Kmn.
  Proof.
    pose proof (ok_chol la ok m A A_s A_p) as C.
    apply (ok_tri la ok); [exact (chol_lower _ _ _ C)|exact (chol_diag_nz _ _ _ C)].
  Qed.
  Lemma cov_formula : forall B, meq m n (mm m A B) Kmn ->
    meq n n cov (fun i j => Knn i j - mm m (tr Kmn) B i j).
  Proof.
    intros B HB i j Hi Hj. unfold cov, cov_of. f_equal.
    exact (chol_gram m n n A (la_chol la m A) _ Kmn _ Kmn B (ok_chol la ok m A A_s A_p) G_ok G_ok HB i j Hi Hj).
  Qed.
  Lemma cov_sym : sym n cov.
  Proof.
    intros i j Hi Hj. unfold cov, cov_of. rewrite (Hsn i j Hi Hj). f_equal. unfold mm, tr. apply sum_ext. intros; ring.
  Qed.
  Definition wv (v : Vec) : Vec := mv n Kmn v.
  Lemma cov_qf : forall v b, veq m (mv m A b) (wv v) -> qf n cov v = qf n Knn v - dot m b (wv v).
  Proof.
    intros v b Hb.
    pose proof (ok_solve la ok m n A Kmn (pd_nonsing m A A_p)) as HB. set (B := la_solve la m A Kmn) in *.
    rewrite (qf_ext n cov (msub Knn (mm m (tr Kmn) B)) v v); [|exact (cov_formula B HB)|intros ? ?; reflexivity].
    rewrite qf_msub. f_equal.
    assert (E : veq m (mv n B v) b).
    { apply (pd_inj m A); [exact A_p|]. intros i Hi. rewrite Hb by auto. rewrite <- mv_mm. unfold wv.
      apply (mv_ext m n); auto. intros ? ?; reflexivity. }
    rewrite qf_dot.
    rewrite (dot_ext n v (mv n (mm m (tr Kmn) B) v) v (mv m (tr Kmn) (mv n B v)));
      [|intros ? ?; reflexivity|intros i _; apply mv_mm].
    rewrite dot_mv_tr. rewrite dot_comm.
    apply dot_ext; [exact E|]. intros i Hi. reflexivity.
  Qed.
  Lemma inv_exists : forall w, exists b, veq m (mv m A b) w.
  Proof.
    intro w. exists (fun i => la_solve la m A (fun i _ => w i) i O). intros i Hi.
    exact (ok_solve la ok m 1 A (fun i _ => w i) (pd_nonsing m A A_p) i O Hi (le_n 1)).
  Qed.
  Lemma cov_le_prior : psd n (fun i j => Knn i j - cov i j).
  Proof.
    intros v. change (0 <= qf n (msub Knn cov) v). rewrite qf_msub.
    destruct (inv_exists (wv v)) as [b Hb]. rewrite (cov_qf v b Hb).
    rewrite <- (qf_at_min m A b (wv v) Hb). pose proof (pd_psd m A A_p b). lra.
  Qed.
  Hypothesis joint : forall b v, 0 <= qf m Kmm b + 2 * dot m b (wv v) + qf n Knn v.
  Lemma cov_psd : psd n cov.
  Proof.
    intros v. destruct (inv_exists (wv v)) as [b Hb]. rewrite (cov_qf v b Hb).
    pose proof (joint (fun i => -1 * b i) v) as J. rewrite qf_scal in J.
    assert (D : dot m (fun i => -1 * b i) (wv v) = - dot m b (wv v)).
    { unfold dot. rewrite (sum_ext m _ (fun i => -1 * (b i * wv v i))) by (intros; ring). rewrite sum_scal_l. ring. }
    rewrite D in J. pose proof (qf_at_min m A b (wv v) Hb) as Q. unfold A in Q. rewrite qf_add_diag in Q.
    assert (0 <= s * dot m b b) by (apply Rmult_le_pos; [lra|apply dot_nonneg]). lra.
  Qed.
End Cov.

(** adding training rows never increases the covariance *)
Lemma qf_pad : forall m p A b, qf (m + p) A (fun i => if Nat.ltb i m then b i else 0) = qf m A b.
Proof.
  intros. unfold qf. rewrite sum_app.
  rewrite (sum_zero_ext p).
  2:{ intros i Hi. apply sum_zero_ext. intros j Hj. rewrite (proj2 (Nat.ltb_ge (m + i) m)) by lia. ring. }
  rewrite Rplus_0_r. apply sum_ext. intros i Hi. rewrite sum_app.
  rewrite (sum_zero_ext p).
  2:{ intros j Hj. rewrite (proj2 (Nat.ltb_ge (m + j) m)) by lia. ring. }
  rewrite Rplus_0_r. apply sum_ext. intros j Hj. rewrite !(proj2 (Nat.ltb_lt _ m)) by auto. reflexivity.
Qed.
Lemma dot_pad : forall m p b w, dot (m + p) (fun i => if Nat.ltb i m then b i else 0) w = dot m b w.
Proof.
  intros. unfold dot. rewrite sum_app. rewrite (sum_zero_ext p).
  2:{ intros i Hi. rewrite (proj2 (Nat.ltb_ge (m + i) m)) by lia. ring. }
  rewrite Rplus_0_r. apply sum_ext. intros i Hi. rewrite (proj2 (Nat.ltb_lt _ m)) by auto. reflexivity.
Qed.
Lemma cov_mono : forall la, linalg_ok la -> forall m p n Kmm Kmn Kmm' Kmn' Knn s, 0 < s ->
  sym m Kmm -> psd m Kmm -> sym (m + p) Kmm' -> psd (m + p) Kmm' ->
  meq m m Kmm Kmm' -> meq m n Kmn Kmn' ->
  psd n (fun i j => cov_of la m (add_diag s Kmm) Kmn Knn i j - cov_of la (m + p) (add_diag s Kmm') Kmn' Knn i j).
Proof.
  intros la ok m p n Kmm Kmn Kmm' Kmn' Knn s Hs S P S' P' E1 E2 v.
  change (0 <= qf n (msub (cov_of la m (add_diag s Kmm) Kmn Knn) (cov_of la (m + p) (add_diag s Kmm') Kmn' Knn)) v).
  rewrite qf_msub.
  destruct (inv_exists la ok m Kmm s Hs P (wv n Kmn v)) as [b Hb].
  destruct (inv_exists la ok (m + p) Kmm' s Hs P' (wv n Kmn' v)) as [b' Hb'].
  rewrite (cov_qf la ok m n Kmm Kmn Knn s Hs S P v b Hb).
  rewrite (cov_qf la ok (m + p) n Kmm' Kmn' Knn s Hs S' P' v b' Hb').
  pose proof (qf_min (m + p) (add_diag s Kmm') b' (wv n Kmn' v) (fun i => if Nat.ltb i m then b i else 0)
    (sym_add_diag _ s _ S') (psd_add_diag _ s _ P' (Rlt_le _ _ Hs)) Hb') as M.
  rewrite (qf_at_min _ _ _ _ Hb'), qf_pad, dot_pad in M.
  rewrite (qf_ext m (add_diag s Kmm') (add_diag s Kmm) b b) in M;
    [|intros i j Hi Hj; unfold add_diag; now rewrite E1|intros ? ?; reflexivity].
  rewrite (qf_at_min _ _ _ _ Hb) in M.
  assert (D : dot m b (wv n Kmn' v) = dot m b (wv n Kmn v)).
  { apply dot_ext; [intros ? ?; reflexivity|]. intros i Hi. unfold wv, mv. apply sum_ext. intros j Hj. now rewrite E2. }
  rewrite D in M. lra.
Qed.

(** joint positivity from a psd matrix on the concatenated functionals *)
Lemma joint_of : forall m n T Kmm Kmn Knn, psd (m + n) T ->
  meq m m Kmm T -> (forall i j, (i < m)%nat -> (j < n)%nat -> Kmn i j = T i (m + j)%nat) ->
  (forall i j, (i < m)%nat -> (j < n)%nat -> Kmn i j = T (m + j)%nat i) ->
  (forall i j, (i < n)%nat -> (j < n)%nat -> Knn i j = T (m + i)%nat (m + j)%nat) ->
  forall b v, 0 <= qf m Kmm b + 2 * dot m b (wv n Kmn v) + qf n Knn v.
Proof.
  intros m n T Kmm Kmn Knn H E1 E2 E2' E3 b v.
  specialize (H (fun i => if Nat.ltb i m then b i else v (i - m)%nat)).
  eapply Rle_trans; [exact H|]. apply Req_le. unfold qf at 1. rewrite sum_app.
  assert (L1 : forall i, (i < m)%nat -> Nat.ltb i m = true) by (intros; now apply Nat.ltb_lt).
  assert (L2 : forall i, Nat.ltb (m + i) m = false) by (intros; apply Nat.ltb_ge; lia).
  assert (L3 : forall i, (m + i - m)%nat = i) by (intros; lia).
  assert (D : dot m b (wv n Kmn v) = sum m (fun i => sum n (fun j => b i * Kmn i j * v j))).
  { unfold dot, wv, mv. apply sum_ext. intros. rewrite <- sum_scal_l. apply sum_ext. intros; ring. }
  assert (D' : dot m b (wv n Kmn v) = sum n (fun j => sum m (fun i => v j * T (m + j)%nat i * b i))).
  { rewrite D, sum_swap. apply sum_ext. intros j Hj. apply sum_ext. intros i Hi. rewrite E2' by auto. ring. }
  transitivity ((qf m Kmm b + dot m b (wv n Kmn v)) + (dot m b (wv n Kmn v) + qf n Knn v)); [|ring].
  f_equal.
  - rewrite D. unfold qf. rewrite <- sum_plus. apply sum_ext. intros i Hi. rewrite sum_app. f_equal.
    + apply sum_ext. intros j Hj. rewrite !L1, E1 by auto. reflexivity.
    + apply sum_ext. intros j Hj. rewrite L1, L2, L3, E2 by auto. reflexivity.
  - rewrite D'. unfold qf. rewrite <- sum_plus. apply sum_ext. intros i Hi. rewrite sum_app, L2, L3. f_equal.
    + apply sum_ext. intros j Hj. rewrite !L1 by auto. reflexivity.
    + apply sum_ext. intros j Hj. rewrite L2, L3, E3 by auto. reflexivity.
Qed.

(** ** Instances *)
Definition vstack (m : nat) (a b : Mat) : Mat := fun i => if Nat.ltb i m then a i else b (i - m)%nat.
Lemma vstack_l : forall m a b i, (i < m)%nat -> vstack m a b i = a i.
Proof. intros. unfold vstack. now rewrite (proj2 (Nat.ltb_lt i m)). Qed.
Lemma vstack_r : forall m a b i, vstack m a b (m + i)%nat = b i.
Proof. intros. unfold vstack. rewrite (proj2 (Nat.ltb_ge (m + i) m)) by lia. f_equal. lia. Qed.

Section Inst.
  Variable la : linalg.
  Hypothesis ok : linalg_ok la.
  Variables (nf : nat) (k : kexp) (sigma : R).
  Hypothesis HP : all_atoms (fun _ a => psd_atom a) k.

  Lemma kk_symm : forall n x, sym n (kk nf k x x).
  Proof. intros n x i j _ _. apply kk_sym. Qed.
  Lemma kk_joint : forall m n xt x b v,
    0 <= qf m (kk nf k xt xt) b + 2 * dot m b (wv n (kk nf k xt x) v) + qf n (kk nf k x x) v.
  Proof.
    intros m n xt x. apply (joint_of m n (kk nf k (vstack m xt x) (vstack m xt x))).
    - now apply kk_psd.
    - intros i j Hi Hj. now rewrite !kk_at, !vstack_l by auto.
    - intros i j Hi Hj. now rewrite !kk_at, vstack_l, vstack_r by auto.
    - intros i j Hi Hj. rewrite !kk_at, vstack_r, vstack_l by auto. apply kernel_at_sym.
    - intros i j Hi Hj. now rewrite !kk_at, !vstack_r.
  Qed.
  Lemma predict_cov_formula : forall m n xt x B,
    meq m n (mm m (A_lhs nf k sigma xt xt true) B) (kk nf k xt x) ->
    meq n n (predict_cov la m nf k sigma xt x) (fun i j => kk nf k x x i j - mm m (tr (kk nf k xt x)) B i j).
  Proof.
    intros m n xt x B. exact (cov_formula la ok m n _ _ (kk nf k x x) _ (noise_pos sigma) (kk_symm m xt) (kk_psd nf k m xt HP) B).
  Qed.
  Lemma predict_cov_sym : forall m n xt x, sym n (predict_cov la m nf k sigma xt x).
  Proof. intros. exact (cov_sym la m n (kk nf k xt xt) (kk nf k xt x) _ (sigma ^ 2 + jit10) (kk_symm n x)). Qed.
  Lemma predict_cov_psd : forall m n xt x, psd n (predict_cov la m nf k sigma xt x).
  Proof.
    intros. exact (cov_psd la ok m n _ _ _ _ (noise_pos sigma) (kk_symm m xt) (kk_psd nf k m xt HP) (kk_joint m n xt x)).
  Qed.
  Lemma predict_cov_prior : forall m n xt x,
    psd n (fun i j => kk nf k x x i j - predict_cov la m nf k sigma xt x i j).
  Proof.
    intros. exact (cov_le_prior la ok m n _ _ (kk nf k x x) _ (noise_pos sigma) (kk_symm m xt) (kk_psd nf k m xt HP)).
  Qed.
  Lemma predict_cov_mono : forall m p n xt xt' x, (forall i, (i < m)%nat -> xt' i = xt i) ->
    psd n (fun i j => predict_cov la m nf k sigma xt x i j - predict_cov la (m + p) nf k sigma xt' x i j).
  Proof.
    intros m p n xt xt' x E.
    apply (cov_mono la ok m p n (kk nf k xt xt) (kk nf k xt x) (kk nf k xt' xt') (kk nf k xt' x) (kk nf k x x) _ (noise_pos sigma));
      try apply kk_symm; try (now apply kk_psd); intros i j Hi Hj; rewrite !kk_at, !E by auto; reflexivity.
  Qed.

  (** derivative outputs *)
  Hypothesis W : wf nf k.
  Hypothesis L : ls_nonzero k.
  Section DD.
  Hypothesis HD : dgram_ok k.
  Let T (m n nv nd : nat) (xt : Mat) (jt : Ten) (x : Mat) (jac : Ten) : Mat :=
    fun i j =>
      let X := vstack (m * nv) (fun i => xt (i / nv)%nat) (fun i => x (i / nd)%nat) in
      let U := vstack (m * nv) (fun i => jcol jt (i / nv)%nat (i mod nv)%nat) (fun i => jcol jac (i / nd)%nat (i mod nd)%nat) in
      E01 nf k (X i) (X j) (U i) (U j).
  Lemma dd_symm : forall n nd x jac, sym (n * nd) (d01kj n n nf nd nd k x x jac jac).
  Proof. intros n nd x jac i j Hi Hj. apply d01kj_trans; auto. intros s t _ _. now apply dgram_regular. Qed.
  Lemma dd_joint : forall m n nv nd xt jt x jac b v,
    0 <= qf (m * nv) (d01kj m m nf nv nv k xt xt jt jt) b
       + 2 * dot (m * nv) b (wv (n * nd) (d01kj m n nf nv nd k xt x jt jac) v)
       + qf (n * nd) (d01kj n n nf nd nd k x x jac jac) v.
  Proof.
    intros m n nv nd xt jt x jac. apply (joint_of (m * nv) (n * nd) (T m n nv nd xt jt x jac)).
    - refine (E01_psd nf k _ (vstack (m * nv) (fun i => xt (i / nv)%nat) (fun i => x (i / nd)%nat))
        (vstack (m * nv) (fun i => jcol jt (i / nv)%nat (i mod nv)%nat) (fun i => jcol jac (i / nd)%nat (i mod nd)%nat)) HP _).
      now apply dgram_jetable.
    - intros i j Hi Hj. unfold T. rewrite !vstack_l by auto.
      destruct (blk_eq m nv i Hi) as [s [a [Hs [Ha ->]]]]. destruct (blk_eq m nv j Hj) as [t [c [Ht [Hc ->]]]].
      now rewrite !blk_div, !blk_mod, d01kj_E01 by auto.
    - intros i j Hi Hj. unfold T. rewrite !vstack_r, !vstack_l by auto.
      destruct (blk_eq m nv i Hi) as [s [a [Hs [Ha ->]]]]. destruct (blk_eq n nd j Hj) as [t [c [Ht [Hc ->]]]].
      now rewrite !blk_div, !blk_mod, d01kj_E01 by auto.
    - intros i j Hi Hj. unfold T. rewrite !vstack_r, !vstack_l by auto.
      destruct (blk_eq m nv i Hi) as [s [a [Hs [Ha ->]]]]. destruct (blk_eq n nd j Hj) as [t [c [Ht [Hc ->]]]].
      rewrite !blk_div, !blk_mod, d01kj_E01 by auto. apply E01_sym; auto. now apply dgram_regular.
    - intros i j Hi Hj. unfold T. rewrite !vstack_r by auto.
      destruct (blk_eq n nd i Hi) as [s [a [Hs [Ha ->]]]]. destruct (blk_eq n nd j Hj) as [t [c [Ht [Hc ->]]]].
      now rewrite !blk_div, !blk_mod, d01kj_E01 by auto.
  Qed.
  Lemma predict_derivs_cov_formula : forall m n nv nd xt jt x jac B,
    meq (m * nv) (n * nd) (mm (m * nv) (A_derivs_lhs m m nf nv nv k sigma xt jt xt jt true) B) (d01kj m n nf nv nd k xt x jt jac) ->
    meq (n * nd) (n * nd) (predict_derivs_cov la m n nf nv nd k sigma xt jt x jac)
      (fun i j => d01kj n n nf nd nd k x x jac jac i j - mm (m * nv) (tr (d01kj m n nf nv nd k xt x jt jac)) B i j).
  Proof.
    intros m n nv nd xt jt x jac B.
    exact (cov_formula la ok (m * nv) (n * nd) _ _ (d01kj n n nf nd nd k x x jac jac) _ (noise_pos sigma) (dd_symm m nv xt jt)
      (dgram_psd m nf nv k xt jt HP W L HD) B).
  Qed.
  Lemma predict_derivs_cov_sym : forall m n nv nd xt jt x jac,
    sym (n * nd) (predict_derivs_cov la m n nf nv nd k sigma xt jt x jac).
  Proof.
    intros. exact (cov_sym la (m * nv) (n * nd) (d01kj m m nf nv nv k xt xt jt jt) (d01kj m n nf nv nd k xt x jt jac) _
      (sigma ^ 2 + jit10) (dd_symm n nd x jac)).
  Qed.
  Lemma predict_derivs_cov_psd : forall m n nv nd xt jt x jac,
    psd (n * nd) (predict_derivs_cov la m n nf nv nd k sigma xt jt x jac).
  Proof.
    intros. exact (cov_psd la ok (m * nv) (n * nd) _ _ _ _ (noise_pos sigma) (dd_symm m nv xt jt)
      (dgram_psd m nf nv k xt jt HP W L HD) (dd_joint m n nv nd xt jt x jac)).
  Qed.
  Lemma predict_derivs_cov_prior : forall m n nv nd xt jt x jac,
    psd (n * nd) (fun i j => d01kj n n nf nd nd k x x jac jac i j - predict_derivs_cov la m n nf nv nd k sigma xt jt x jac i j).
  Proof.
    intros. exact (cov_le_prior la ok (m * nv) (n * nd) _ _ (d01kj n n nf nd nd k x x jac jac) _ (noise_pos sigma) (dd_symm m nv xt jt)
      (dgram_psd m nf nv k xt jt HP W L HD)).
  Qed.
  End DD.

  (** value outputs from derivative training data *)
  Section YD.
  Hypothesis HE : exact k.
  Hypothesis Hs : sigma <> 0.
  Lemma yd_dgram : dgram_ok k. Proof. destruct k; now left. Qed.
  Let X (m nv : nat) (xt x : Mat) := vstack (m * nv) (fun i => xt (i / nv)%nat) x.
  Let U (m nv : nat) (jt : Ten) : Mat := fun i => jcol jt (i / nv)%nat (i mod nv)%nat.
  Lemma yd_joint : forall m n nv xt jt x b v,
    0 <= qf (m * nv) (d01kj m m nf nv nv k xt xt jt jt) b
       + 2 * dot (m * nv) b (wv n (d0kj m n nf nv k xt x jt) v) + qf n (kk nf k x x) v.
  Proof.
    intros m n nv xt jt x.
    assert (L1 : forall i, (i < m * nv)%nat -> Nat.ltb i (m * nv) = true) by (intros; now apply Nat.ltb_lt).
    assert (L2 : forall i, Nat.ltb (m * nv + i) (m * nv) = false) by (intros; apply Nat.ltb_ge; lia).
    apply (joint_of (m * nv) n (jgram nf k (X m nv xt x) (U m nv jt) (fun i => Nat.ltb i (m * nv)))).
    - now apply jgram_psd.
    - intros i j Hi Hj. unfold jgram, X, U. rewrite !L1, !vstack_l by auto.
      destruct (blk_eq m nv i Hi) as [s [a [Hs' [Ha ->]]]]. destruct (blk_eq m nv j Hj) as [t [c [Ht [Hc ->]]]].
      now rewrite !blk_div, !blk_mod, d01kj_E01 by auto.
    - intros i j Hi Hj. unfold jgram, X, U. rewrite L2, L1, vstack_r, vstack_l by auto.
      destruct (blk_eq m nv i Hi) as [s [a [Hs' [Ha ->]]]].
      now rewrite !blk_div, !blk_mod, d0kj_E0 by auto.
    - intros i j Hi Hj. unfold jgram, X, U. rewrite L2, L1, vstack_r, vstack_l by auto.
      destruct (blk_eq m nv i Hi) as [s [a [Hs' [Ha ->]]]].
      now rewrite !blk_div, !blk_mod, d0kj_E0 by auto.
    - intros i j Hi Hj. unfold jgram, X, U. rewrite !L2, !vstack_r by auto. apply kk_at.
  Qed.
  Lemma predict_y_derivs_cov_formula : forall m n nv xt jt x B,
    meq (m * nv) n (mm (m * nv) (add_diag (sigma ^ 2) (d01kj m m nf nv nv k xt xt jt jt)) B) (d0kj m n nf nv k xt x jt) ->
    meq n n (predict_y_derivs_cov la m n nf nv k sigma xt jt x)
      (fun i j => kk nf k x x i j - mm (m * nv) (tr (d0kj m n nf nv k xt x jt)) B i j).
  Proof.
    intros m n nv xt jt x B.
    exact (cov_formula la ok (m * nv) n _ _ (kk nf k x x) _ (sq_pos sigma Hs) (dd_symm yd_dgram m nv xt jt)
      (dgram_psd m nf nv k xt jt HP W L yd_dgram) B).
  Qed.
  Lemma predict_y_derivs_cov_sym : forall m n nv xt jt x, sym n (predict_y_derivs_cov la m n nf nv k sigma xt jt x).
  Proof.
    intros. exact (cov_sym la (m * nv) n (d01kj m m nf nv nv k xt xt jt jt) (d0kj m n nf nv k xt x jt) _ (sigma ^ 2) (kk_symm n x)).
  Qed.
  Lemma predict_y_derivs_cov_psd : forall m n nv xt jt x, psd n (predict_y_derivs_cov la m n nf nv k sigma xt jt x).
  Proof.
    intros. exact (cov_psd la ok (m * nv) n _ _ _ _ (sq_pos sigma Hs) (dd_symm yd_dgram m nv xt jt)
      (dgram_psd m nf nv k xt jt HP W L yd_dgram) (yd_joint m n nv xt jt x)).
  Qed.
  Lemma predict_y_derivs_cov_prior : forall m n nv xt jt x,
    psd n (fun i j => kk nf k x x i j - predict_y_derivs_cov la m n nf nv k sigma xt jt x i j).
  Proof.
    intros. exact (cov_le_prior la ok (m * nv) n _ _ (kk nf k x x) _ (sq_pos sigma Hs) (dd_symm yd_dgram m nv xt jt)
      (dgram_psd m nf nv k xt jt HP W L yd_dgram)).
  Qed.
  End YD.
End Inst.
