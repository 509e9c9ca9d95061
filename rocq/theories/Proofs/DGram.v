(** Mixed-derivative matrices of sums of soft kernels and Matern32, and derivative regression on any
    kernel whose noisy derivative matrix is positive definite. *)
From Coq Require Import Reals Arith Lia Lra List FunctionalExtensionality.
From Coquelicot Require Import Coquelicot.
From Verif Require Import Base.Sums Base.Mat Base.PSD Model.Arrays Model.Distances Model.Kernelizers Model.Kernels
  Model.LinAlg Model.Operations Model.RPCholesky Model.GPR Spec.Partial Spec.KernelSpec Spec.Det Spec.MVN Spec.GPSpec
  Spec.SoftSpec Proofs.KernelAtoms Proofs.KernelJets Proofs.KernelMethods Proofs.LinAlgFacts Proofs.Matvec Proofs.Loops Proofs.JetPSD
  Proofs.GPRFacts Proofs.GPRLml Proofs.SoftPSD Proofs.M32Gram.
Open Scope R_scope.

Definition m32_sep1 (nf : nat) (k : kexp) (x y : Vec) : Prop :=
  all_atoms (fun ad a => match a with
    | AM32 l => sqd nf ad l x y = 0 \/ / 10 ^ 36 < 3 * sqd nf ad l x y | _ => True end) k.
Lemma gram_soft_E01 : forall nf k, all_atoms (fun _ a => psd_atom a) k -> wf nf k -> ls_nonzero k -> gram_soft k ->
  forall N Xi Ui c, (forall i j, (i < N)%nat -> (j < N)%nat -> m32_sep1 nf k (Xi i) (Xi j)) ->
  - (sum N (fun i => dslack nf k (Xi i) (Ui i)) * sum N (fun i => c i ^ 2))
  <= qf N (fun i j => E01 nf k (Xi i) (Xi j) (Ui i) (Ui j)) c.
Proof.
  intros nf k. induction k as [ad a|k1 IH1 k2 IH2|k1 IH1 k2 IH2]; intros HP W L S N Xi Ui c Hs.
  - destruct a; try (now apply soft_E01).
    pose proof (E01_m32_low nf ad l L W N Xi Ui c) as Q.
    assert (Q' := Q Hs). clear Q.
    eapply Rle_trans; [|exact Q']. apply Req_le. do 2 f_equal. apply sum_ext. intros i Hi. unfold dslack, dirp.
    f_equal. apply sum_ext. intros b Hb. change (dims nf ad) with (active nf ad). ring.
  - destruct HP as [P1 P2], W as [W1 W2], L as [L1 L2], S as [S1 S2].
    specialize (IH1 P1 W1 L1 S1 N Xi Ui c (fun i j Hi Hj => proj1 (Hs i j Hi Hj))).
    specialize (IH2 P2 W2 L2 S2 N Xi Ui c (fun i j Hi Hj => proj2 (Hs i j Hi Hj))).
    rewrite (qf_ext N _ (madd (fun i j => E01 nf k1 (Xi i) (Xi j) (Ui i) (Ui j))
      (fun i j => E01 nf k2 (Xi i) (Xi j) (Ui i) (Ui j))) c c).
    + rewrite qf_madd. cbn [dslack]. rewrite sum_plus. lra.
    + intros i j Hi Hj. unfold madd. apply E01_sum.
    + intros ? ?; reflexivity.
  - now apply soft_E01.
Qed.
Theorem gram_soft_dgram : forall n nf nv k X J,
  all_atoms (fun _ a => psd_atom a) k -> wf nf k -> ls_nonzero k -> gram_soft k -> m32_separated nf k n X ->
  forall c,
  - (total_dslack n nf nv k X J * sum (n * nv) (fun i => c i ^ 2))
  <= qf (n * nv) (d01kj n n nf nv nv k X X J J) c.
Proof.
  intros n nf nv k X J HP W L S Hs c.
  set (Xi := fun i => X (i / nv)%nat). set (Ui := fun i => jcol J (i / nv)%nat (i mod nv)%nat).
  assert (E : qf (n * nv) (d01kj n n nf nv nv k X X J J) c
    = qf (n * nv) (fun i j => E01 nf k (Xi i) (Xi j) (Ui i) (Ui j)) c).
  { apply qf_ext; [|intros ? ?; reflexivity]. intros i j Hi Hj.
    destruct (blk_eq n nv i Hi) as [s [v [Hs' [Hv ->]]]]. destruct (blk_eq n nv j Hj) as [t [u [Ht [Hu ->]]]].
    unfold Xi, Ui. rewrite !blk_div, !blk_mod, d01kj_E01 by auto. reflexivity. }
  rewrite E.
  assert (D : sum (n * nv) (fun i => dslack nf k (Xi i) (Ui i)) = total_dslack n nf nv k X J).
  { rewrite sum_block. unfold total_dslack. apply sum_ext. intros s Hs'. apply sum_ext. intros v Hv.
    unfold Xi, Ui. rewrite !blk_div, !blk_mod by auto. reflexivity. }
  rewrite <- D. apply gram_soft_E01; auto.
  intros i j Hi Hj. destruct (blk_eq n nv i Hi) as [s [v [Hs' [Hv ->]]]]. destruct (blk_eq n nv j Hj) as [t [u [Ht [Hu ->]]]].
  unfold Xi. rewrite !blk_div by auto. exact (Hs s t Hs' Ht).
Qed.
Lemma gram_soft_pair : forall nf k x y, gram_soft k -> m32_sep1 nf k x y ->
  all_atoms (fun ad a => regular_pair nf ad a x y) k.
Proof.
  intros nf k x y. induction k as [ad a|k1 IH1 k2 IH2|k1 IH1 k2 IH2]; intros S H.
  - destruct a; try exact I; try contradiction. change (3 * sqd nf ad l x y <> tiny36). pose proof tiny36_pos. destruct H as [H|H]; [rewrite H; lra|]. unfold tiny36 in *. apply Rgt_not_eq, H.
  - destruct S, H. split; auto.
  - now apply soft_regular.
Qed.
Lemma gram_soft_regular : forall n nf k X, gram_soft k -> m32_separated nf k n X -> regular nf k n n X X.
Proof. intros n nf k X S H s t Hs Ht. apply gram_soft_pair; auto. exact (H s t Hs Ht). Qed.
Theorem gram_soft_pd : forall n nf nv k sigma X J,
  all_atoms (fun _ a => psd_atom a) k -> wf nf k -> ls_nonzero k -> gram_soft k -> m32_separated nf k n X ->
  total_dslack n nf nv k X J < sigma ^ 2 + / 10 ^ 10 ->
  pd (n * nv) (noisy sigma (d01kj n n nf nv nv k X X J J)).
Proof.
  intros n nf nv k sigma X J HP W L S Hs H c Hc.
  pose proof (gram_soft_dgram n nf nv k X J HP W L S Hs c) as Q.
  assert (E : qf (n * nv) (noisy sigma (d01kj n n nf nv nv k X X J J)) c
    = qf (n * nv) (d01kj n n nf nv nv k X X J J) c + (sigma ^ 2 + / 10 ^ 10) * sum (n * nv) (fun i => c i ^ 2)).
  { change (noisy sigma ?A) with (add_diag (sigma ^ 2 + / 10 ^ 10) A). rewrite qf_add_diag. f_equal. f_equal.
    apply sum_ext. intros. ring. }
  rewrite E.
  assert (P : 0 < sum (n * nv) (fun i => c i ^ 2)).
  { destruct Hc as [i [Hi Hci]].
    eapply Rlt_le_trans; [|apply (sum_term_le (n * nv) (fun i => c i ^ 2) (fun i _ => pow2_ge_0 (c i)) i Hi)].
    simpl. nra. }
  set (q := qf _ _ _) in *. set (b := sum _ _) in *. set (D := total_dslack _ _ _ _ _ _) in *.
  assert (D * b < (sigma ^ 2 + / 10 ^ 10) * b) by now apply Rmult_lt_compat_r. lra.
Qed.

Section Reg.
  Variable la : linalg.
  Hypothesis ok : linalg_ok la.
  Variables (m nf nv : nat) (k : kexp) (sigma : R) (x : Mat) (jac : Ten).
  Hypothesis W : wf nf k.
  Hypothesis L : ls_nonzero k.
  Hypothesis HR : regular nf k m m x x.
  Hypothesis HP : pd (m * nv) (noisy sigma (d01kj m m nf nv nv k x x jac jac)).
  Lemma fit_derivs_solves_pd : forall y mf,
    meq (m * nv) 1 (mm (m * nv) (A_derivs_lhs m m nf nv nv k sigma x jac x jac true)
        (fst (fit_derivs_dense la m nf nv k sigma x jac y mf)))
      (fun i j => flat nv y i j - mf (m * nv)%nat 1%nat (flat nv y)).
  Proof. intros. apply (ok_solve la ok). now apply pd_nonsing. Qed.
  Lemma fit_derivs_residual_pd : forall y mf,
    let c := fst (fit_derivs_dense la m nf nv k sigma x jac y mf) in
    let mu := snd (fit_derivs_dense la m nf nv k sigma x jac y mf) in
    forall s v, (s < m)%nat -> (v < nv)%nat ->
    y s v - predict_derivs_dense m m nf nv nv k sigma x jac x jac c mu s v
    = (sigma ^ 2 + / 10 ^ 10) * c (s * nv + v)%nat O.
  Proof.
    intros y mf c mu s v Hs Hv. rewrite pdd_mm by auto.
    pose proof (resid_of_solve (m * nv) 1 (sigma ^ 2 + jit10) (d01kj m m nf nv nv k x x jac jac) c _
      (fit_derivs_solves_pd y mf) (s * nv + v)%nat O (blk_lt _ _ _ _ Hs Hv) (le_n 1)) as Q.
    unfold jit10 in Q. rewrite <- Q. unfold flat. rewrite blk_div, blk_mod by auto.
    change mu with (mf (m * nv)%nat 1%nat (flat nv y)). unfold flat. ring.
  Qed.
  Lemma fit_derivs_iter_pd : forall choose y mf np, sigma <> 0 ->
    meq (m * nv) 1 (fst (fit_derivs_iter la choose m nf nv k sigma x jac y mf np))
      (fst (fit_derivs_dense la m nf nv k sigma x jac y mf))
    /\ snd (fit_derivs_iter la choose m nf nv k sigma x jac y mf np) = snd (fit_derivs_dense la m nf nv k sigma x jac y mf).
  Proof.
    intros choose y mf np Hs. split; [|reflexivity].
    apply (solve_unique (m * nv) 1 (A_derivs_lhs m m nf nv nv k sigma x jac x jac true)); [now apply pd_nonsing|].
    eapply meq_trans; [|apply meq_sym, fit_derivs_solves_pd; auto].
    simpl. unfold precond_rpcholesky_derivs. set (F := fst (rpcholesky_derivs choose m nf nv x jac np k)).
    apply (ok_cg la ok) with (P := pcm la (m * nv) np sigma F).
    - now apply Ad_sym.
    - exact HP. - now apply pcm_sym. - now apply pcm_pd.
    - intros Z i j Hi Hj. now apply Axd_mm.
    - intros Z i j Hi Hj. now apply precond_pcm.
  Qed.
  Lemma lml_derivs_mvn_pd : forall y mf b, (0 < m * nv)%nat ->
    veq (m * nv) (mv (m * nv) (noisy sigma (d01kj m m nf nv nv k x x jac jac)) b)
      (fun i => flat nv y i O - mf (m * nv)%nat 1%nat (flat nv y)) ->
    INR (m * nv) * lml_derivs_dense la m nf nv k sigma x jac y mf
    = ln (mvn_pdf (m * nv) (noisy sigma (d01kj m m nf nv nv k x x jac jac))
           (fun i => flat nv y i O - mf (m * nv)%nat 1%nat (flat nv y)) b).
  Proof.
    intros y mf b Hm Hb. unfold lml_derivs_dense.
    apply (lml_of_mvn la ok (m * nv) _ (fun i j => flat nv y i j - mf (m * nv)%nat 1%nat (flat nv y)) b Hm); auto.
    now apply Ad_sym.
  Qed.
End Reg.

(** a product of two squared exponentials plus a Matern32 kernel *)
Definition ex_soft : kexp := KSum (KProd (KAtom None (ASE 2)) (KAtom (Some (0 :: nil)%nat) (ASE 3))) (KAtom None (AM32 1)).
Lemma ex_soft_ok : all_atoms (fun _ a => psd_atom a) ex_soft /\ wf 2 ex_soft /\ ls_nonzero ex_soft /\ gram_soft ex_soft
  /\ m32_separated 2 ex_soft 3 (fun s _ => INR s).
Proof.
  split; [|split; [|split; [|split]]].
  - simpl. auto.
  - simpl. repeat split; auto.
    + repeat constructor. auto.
    + intros d [<-|[]]. lia.
  - simpl. repeat split; apply Rgt_not_eq; lra.
  - simpl. unfold soft. simpl. auto.
  - intros s t Hs Ht. cbn [ex_soft all_atoms]. split; [split; exact I|].
    unfold sqd. simpl.
    assert (E : s = t \/ s <> t) by lia. destruct E as [->|E]; [left; unfold gather; simpl; field|right].
    assert (1 <= (INR s - INR t) ^ 2).
    { destruct (Nat.lt_total s t) as [h|[h|h]]; [|lia|]; apply le_INR in h; rewrite S_INR in h; nra. }
    assert (T : / 10 ^ 36 < 1).
    { rewrite <- Rinv_1. apply Rinv_lt_contravar; [rewrite Rmult_1_l; apply pow_lt; lra|apply Rlt_pow_R1; [lra|lia]]. }
    simpl pow in T. unfold gather. simpl. lra.
Qed.
