(** Log marginal likelihood. *)
From Coq Require Import Reals Arith Lia Lra List FunctionalExtensionality.
From Verif Require Import Base.Sums Base.Mat Base.PSD Model.Arrays Model.Kernels Model.LinAlg Model.Operations
  Model.RPCholesky Model.GPR Spec.KernelSpec Spec.Det Spec.MVN Proofs.LinAlgFacts Proofs.Loops Proofs.KernelDerivs Proofs.KernelSym
  Proofs.KernelPropLemmas Proofs.JetPSD Proofs.GPRFacts Proofs.DetFacts.
Open Scope R_scope.

Lemma ln_pow_n : forall n x, 0 < x -> ln (x ^ n) = INR n * ln x.
Proof.
  induction n; intros x H; [simpl; rewrite ln_1; ring|].
  rewrite S_INR. simpl. rewrite ln_mult; [|lra|now apply pow_lt]. rewrite IHn by auto. ring.
Qed.
Lemma ln_sqrt' : forall x, 0 < x -> ln (sqrt x) = / 2 * ln x.
Proof.
  intros x H. assert (P := sqrt_lt_R0 x H). rewrite <- (sqrt_sqrt x) at 2 by lra. rewrite ln_mult by auto. field.
Qed.
Lemma ln_mvn : forall n A r b, 0 < det n A ->
  ln (mvn_pdf n A r b) = - / 2 * dot n r b - / 2 * ln (det n A) - INR n * / 2 * ln (2 * PI).
Proof.
  intros n A r b HD. unfold mvn_pdf. assert (P : 0 < 2 * PI) by (pose proof PI_RGT_0; lra).
  assert (Q : 0 < (2 * PI) ^ n) by now apply pow_lt.
  assert (Q' : 0 < (2 * PI) ^ n * det n A) by now apply Rmult_lt_0_compat.
  unfold Rdiv. rewrite ln_mult; [|apply exp_pos|apply Rinv_0_lt_compat; now apply sqrt_lt_R0].
  rewrite ln_exp, ln_Rinv by now apply sqrt_lt_R0. rewrite ln_sqrt' by auto.
  rewrite ln_mult, ln_pow_n by auto. ring.
Qed.

Section Lml.
  Variable la : linalg.
  Hypothesis ok : linalg_ok la.
  (** general form, any number of outputs: one log-determinant term whatever the number of outputs *)
  Lemma lml_of_gen : forall m o C y B, (0 < m)%nat -> sym m C -> pd m C -> meq m o (mm m C B) y ->
    INR m * lml_of la m o C y
    = - / 2 * sum o (fun j => dot m (fun i => y i j) (fun i => B i j)) - / 2 * ln (det m C) - INR m * / 2 * ln (2 * PI).
  Proof.
    intros m o C y B Hm HS HP HB. unfold lml_of.
    pose proof (ok_chol la ok m C HS HP) as HC.
    destruct (det_chol (n := m) (A := C) (L := la_chol la m C) HC) as [_ [_ D]]. rewrite D.
    assert (HG : meq m o (mm m (la_chol la m C) (la_tri la m (la_chol la m C) y)) y).
    { apply (ok_tri la ok); [exact (chol_lower _ _ _ HC)|exact (chol_diag_nz _ _ _ HC)]. }
    set (G := la_tri la m (la_chol la m C) y) in *.
    assert (E : sum m (fun i => sum o (fun j => G i j ^ 2)) = sum o (fun j => dot m (fun i => y i j) (fun i => B i j))).
    { rewrite sum_swap. apply sum_ext. intros j Hj.
      pose proof (chol_gram m o o C (la_chol la m C) G y G y B HC HG HG HB j j Hj Hj) as Q.
      unfold mm, tr in Q. unfold dot. rewrite <- Q. apply sum_ext. intros; ring. }
    rewrite E. field. apply not_0_INR. lia.
  Qed.
  Lemma lml_of_mvn : forall m C y b, (0 < m)%nat -> sym m C -> pd m C -> veq m (mv m C b) (fun i => y i O) ->
    INR m * lml_of la m 1 C y = ln (mvn_pdf m C (fun i => y i O) b).
  Proof.
    intros m C y b Hm HS HP HB.
    rewrite (lml_of_gen m 1 C y (fun i _ => b i) Hm HS HP).
    - rewrite ln_mvn by (exact (proj1 (proj2 (det_chol (ok_chol la ok m C HS HP))))). cbn [sum]. rewrite Rplus_0_l. reflexivity.
    - intros i j Hi Hj. assert (j = O) by lia. subst. exact (HB i Hi).
  Qed.
  (** re-ordering rows *)
  Lemma lml_of_perm : forall m o C C' y p, (0 < m)%nat -> sym m C -> pd m C -> pd m C' ->
    (forall i, (i < m)%nat -> (p i < m)%nat) -> (forall i j, (i < m)%nat -> (j < m)%nat -> p i = p j -> i = j) ->
    meq m m C' (fun i j => C (p i) (p j)) ->
    lml_of la m o C' (fun i j => y (p i) j) = lml_of la m o C y.
  Proof.
    intros m o C C' y p Hm HS HP HP' Hp Hi HE.
    pose proof (ok_solve la ok m o C y (pd_nonsing m C HP)) as HB. set (B := la_solve la m C y) in *.
    apply (Rmult_eq_reg_l (INR m)); [|apply not_0_INR; lia].
    rewrite (lml_of_gen m o C y B Hm HS HP HB).
    rewrite (lml_of_gen m o C' _ (fun i j => B (p i) j) Hm).
    - rewrite (det_ext HE), (det_reindex Hp Hi C).
      replace (sum o (fun j => dot m (fun i => y (p i) j) (fun i => B (p i) j)))
        with (sum o (fun j => dot m (fun i => y i j) (fun i => B i j))); [reflexivity|].
      apply sum_ext. intros j Hj. symmetry. exact (sum_reindex_perm Hp Hi (fun i => y i j * B i j)).
    - intros i j Hi' Hj. rewrite !HE by auto. apply HS; now apply Hp.
    - exact HP'.
    - intros i j Hi' Hj. unfold mm. rewrite (sum_ext m _ (fun l => C (p i) (p l) * B (p l) j)).
      + rewrite (sum_reindex_perm Hp Hi (fun l => C (p i) l * B l j)). apply HB; auto.
      + intros l Hl. now rewrite HE.
  Qed.
  Lemma eye_perm : forall m (p : nat -> nat) i j, (forall i j, (i < m)%nat -> (j < m)%nat -> p i = p j -> i = j) ->
    (i < m)%nat -> (j < m)%nat -> eye (p i) (p j) = eye i j.
  Proof.
    intros m p i j Hi Hi' Hj. unfold eye, delta. destruct (Nat.eqb_spec i j) as [->|N]; [now rewrite Nat.eqb_refl|].
    destruct (Nat.eqb_spec (p i) (p j)) as [E|E]; [|reflexivity]. exfalso; apply N; now apply Hi.
  Qed.
  Definition mean_perm (mf : nat -> nat -> Mat -> R) : Prop := forall m o p y,
    (forall i, (i < m)%nat -> (p i < m)%nat) -> (forall i j, (i < m)%nat -> (j < m)%nat -> p i = p j -> i = j) ->
    mf m o (fun i => y (p i)) = mf m o y.
  Lemma zero_mean_perm : mean_perm zero_mean.
  Proof. intros m o p y _ _. reflexivity. Qed.
  Lemma data_mean_perm : mean_perm data_mean.
  Proof.
    intros m o p y Hp Hi. unfold data_mean. f_equal.
    exact (sum_reindex_perm Hp Hi (fun i => sum o (fun j => y i j))).
  Qed.
  Lemma lml_dense_perm : forall m o nf k sigma x y mf p, (0 < m)%nat -> all_atoms (fun _ a => psd_atom a) k ->
    mean_perm mf ->
    (forall i, (i < m)%nat -> (p i < m)%nat) -> (forall i j, (i < m)%nat -> (j < m)%nat -> p i = p j -> i = j) ->
    lml_dense la m o nf k sigma (fun i => x (p i)) (fun i => y (p i)) mf = lml_dense la m o nf k sigma x y mf.
  Proof.
    intros m o nf k sigma x y mf p Hm HP HM Hp Hi. unfold lml_dense. rewrite (HM m o p y Hp Hi).
    apply (lml_of_perm m o (A_lhs nf k sigma x x true) _ (fun i j => y i j - mf m o y) p); auto.
    - apply A_sym.
    - now apply A_pd.
    - now apply A_pd.
    - intros i j Hi' Hj. unfold A_lhs. rewrite !kk_at. now rewrite (eye_perm m p).
  Qed.
  Lemma lml_dense_mvn : forall m nf k sigma x y mf b, (0 < m)%nat -> all_atoms (fun _ a => psd_atom a) k ->
    veq m (mv m (A_lhs nf k sigma x x true) b) (fun i => y i O - mf m 1%nat y) ->
    INR m * lml_dense la m 1 nf k sigma x y mf
    = ln (mvn_pdf m (A_lhs nf k sigma x x true) (fun i => y i O - mf m 1%nat y) b).
  Proof.
    intros m nf k sigma x y mf b Hm HP Hb. unfold lml_dense.
    exact (lml_of_mvn m _ (fun i j => y i j - mf m 1%nat y) b Hm (A_sym nf k sigma x m) (A_pd nf k sigma x m HP) Hb).
  Qed.
  Lemma lml_derivs_dense_mvn : forall m nf nv k sigma x jac y mf b, (0 < m * nv)%nat ->
    all_atoms (fun _ a => psd_atom a) k -> wf nf k -> ls_nonzero k -> dgram_ok k ->
    veq (m * nv) (mv (m * nv) (A_derivs_lhs m m nf nv nv k sigma x jac x jac true) b)
      (fun i => flat nv y i O - mf (m * nv)%nat 1%nat (flat nv y)) ->
    INR (m * nv) * lml_derivs_dense la m nf nv k sigma x jac y mf
    = ln (mvn_pdf (m * nv) (A_derivs_lhs m m nf nv nv k sigma x jac x jac true)
           (fun i => flat nv y i O - mf (m * nv)%nat 1%nat (flat nv y)) b).
  Proof.
    intros m nf nv k sigma x jac y mf b Hm HP W L HD Hb. unfold lml_derivs_dense.
    apply (lml_of_mvn (m * nv) _ (fun i j => flat nv y i j - mf (m * nv)%nat 1%nat (flat nv y)) b Hm); auto.
    - apply Ad_sym; auto. intros s t _ _. now apply dgram_regular.
    - now apply Ad_pd.
  Qed.
  (** several outputs share one determinant term *)
  Lemma lml_dense_multi : forall m o nf k sigma x y mf B, (0 < m)%nat -> all_atoms (fun _ a => psd_atom a) k ->
    meq m o (mm m (A_lhs nf k sigma x x true) B) (fun i j => y i j - mf m o y) ->
    INR m * lml_dense la m o nf k sigma x y mf
    = sum o (fun j => ln (mvn_pdf m (A_lhs nf k sigma x x true) (fun i => y i j - mf m o y) (fun i => B i j)))
      + (INR o - 1) * (/ 2 * ln (det m (A_lhs nf k sigma x x true)) + INR m * / 2 * ln (2 * PI)).
  Proof.
    intros m o nf k sigma x y mf B Hm HP HB. unfold lml_dense.
    rewrite (lml_of_gen m o _ _ B Hm (A_sym nf k sigma x m) (A_pd nf k sigma x m HP) HB).
    assert (D : 0 < det m (A_lhs nf k sigma x x true))
      by exact (proj1 (proj2 (det_chol (ok_chol la ok m _ (A_sym nf k sigma x m) (A_pd nf k sigma x m HP))))).
    assert (E : sum o (fun j => ln (mvn_pdf m (A_lhs nf k sigma x x true) (fun i => y i j - mf m o y) (fun i => B i j)))
      = sum o (fun j => - / 2 * dot m (fun i => y i j - mf m o y) (fun i => B i j)
       + (- (/ 2 * ln (det m (A_lhs nf k sigma x x true)) + INR m * / 2 * ln (2 * PI)))))
      by (apply sum_ext; intros j _; rewrite ln_mvn by auto; ring).
    rewrite E, sum_plus, sum_scal_l, sum_const. ring.
  Qed.
  (** the matrix-free computation agrees for one output when CG and the log-determinant are exact *)
  Lemma lml_iter_eq : forall m nf k sigma x y mf c ld, (0 < m)%nat -> all_atoms (fun _ a => psd_atom a) k ->
    meq m 1 (mm m (A_lhs nf k sigma x x true) c) (fun i j => y i j - mf m 1%nat y) ->
    ld = ln (det m (A_lhs nf k sigma x x true)) ->
    lml_iter_of m 1 c (fun i j => y i j - mf m 1%nat y) ld = lml_dense la m 1 nf k sigma x y mf.
  Proof.
    intros m nf k sigma x y mf c ld Hm HP Hc ->.
    apply (Rmult_eq_reg_l (INR m)); [|apply not_0_INR; lia]. unfold lml_dense.
    rewrite (lml_of_gen m 1 _ _ c Hm (A_sym nf k sigma x m) (A_pd nf k sigma x m HP) Hc).
    unfold lml_iter_of. cbn [sum]. unfold mm, tr, dot. field. apply not_0_INR; lia.
  Qed.
End Lml.
