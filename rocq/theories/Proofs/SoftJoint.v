(** Values and derivatives together, for products and sums of squared exponentials with exact kernels. *)
From Coq Require Import Reals Arith Lia Lra List FunctionalExtensionality.
From Coquelicot Require Import Coquelicot.
From Verif Require Import Base.Sums Base.Mat Base.PSD Model.Arrays Model.Distances Model.Kernelizers Model.Kernels
  Model.LinAlg Model.Operations Model.RPCholesky Model.GPR Spec.Partial Spec.KernelSpec Spec.GPSpec
  Spec.SoftSpec Proofs.KernelAtoms Proofs.KernelJets Proofs.KernelMethods Proofs.KernelPSD Proofs.KernelSym Proofs.KernelPropLemmas
  Proofs.LinAlgFacts Proofs.Matvec Proofs.Loops Proofs.Contraction Proofs.KernelDerivs Proofs.Local Proofs.KernelBounds Proofs.JetPSD
  Proofs.GPRFacts Proofs.GPRCov Proofs.SoftPSD Proofs.DGram.
Open Scope R_scope.

Definition jmat (m n nv nf : nat) (k : kexp) (xt : Mat) (jt : Ten) (x : Mat) : Mat := fun i j =>
  match Nat.ltb i (m * nv), Nat.ltb j (m * nv) with
  | true, true => d01kj m m nf nv nv k xt xt jt jt i j
  | true, false => d0kj m n nf nv k xt x jt i (j - m * nv)%nat
  | false, true => d1kj n m nf nv k x xt jt (i - m * nv)%nat j
  | false, false => kk nf k x x (i - m * nv)%nat (j - m * nv)%nat
  end.
Lemma qf_topleft : forall p n A c, qf (p + n) (fun i j => if Nat.ltb i p then if Nat.ltb j p then A i j else 0 else 0) c = qf p A c.
Proof.
  intros. unfold qf. rewrite sum_app.
  rewrite (sum_zero_ext n).
  2:{ intros i Hi. apply sum_zero_ext. intros j Hj. rewrite (proj2 (Nat.ltb_ge (p + i) p)) by lia. ring. }
  rewrite Rplus_0_r. apply sum_ext. intros i Hi. rewrite sum_app. rewrite (proj2 (Nat.ltb_lt i p)) by auto.
  rewrite (sum_zero_ext n).
  2:{ intros j Hj. rewrite (proj2 (Nat.ltb_ge (p + j) p)) by lia. ring. }
  rewrite Rplus_0_r. apply sum_ext. intros j Hj. rewrite (proj2 (Nat.ltb_lt j p)) by auto. reflexivity.
Qed.
Section J.
Variables (nf : nat) (k : kexp).
Hypothesis HP : all_atoms (fun _ a => psd_atom a) k.
Hypothesis W : wf nf k.
Hypothesis L : ls_nonzero k.
Hypothesis S : soft k.
Theorem soft_jmat : forall m n nv xt jt x c,
  - (total_dslack m nf nv k xt jt * sum (m * nv) (fun i => c i ^ 2))
  <= qf (m * nv + n) (jmat m n nv nf k xt jt x) c.
Proof.
  intros m n nv xt jt x c.
  set (Xi := vstack (m * nv) (fun i => xt (i / nv)%nat) x).
  set (Ui := fun i => jcol jt (i / nv)%nat (i mod nv)%nat).
  set (isd := fun i => Nat.ltb i (m * nv)).
  set (Q := fun i j => Qd nf k (Xi i) (Xi j) (Ui i) (Ui j)).
  pose proof (soft_joint nf k HP W L S (m * nv + n) Xi Ui isd c) as P.
  rewrite (qf_ext _ _ (madd (jmat m n nv nf k xt jt x)
    (fun i j => if Nat.ltb i (m * nv) then if Nat.ltb j (m * nv) then Q i j else 0 else 0)) c c) in P;
    [| |intros ? ?; reflexivity].
  2:{ intros i j Hi Hj. unfold joint, madd, jmat, isd, Q.
      destruct (Nat.ltb i (m * nv)) eqn:Ei, (Nat.ltb j (m * nv)) eqn:Ej; unfold Xi, Ui, vstack; rewrite ?Ei, ?Ej.
      - apply Nat.ltb_lt in Ei, Ej.
        destruct (blk_eq m nv i Ei) as [s [a [Hs' [Ha ->]]]]. destruct (blk_eq m nv j Ej) as [t [b [Ht [Hb ->]]]].
        now rewrite !blk_div, !blk_mod, d01kj_E01 by auto.
      - apply Nat.ltb_lt in Ei. apply Nat.ltb_ge in Ej.
        destruct (blk_eq m nv i Ei) as [s [a [Hs' [Ha ->]]]].
        rewrite !blk_div, !blk_mod, d0kj_E0 by (auto; lia). unfold jcol. ring.
      - apply Nat.ltb_lt in Ej. apply Nat.ltb_ge in Ei.
        destruct (blk_eq m nv j Ej) as [s [a [Hs' [Ha ->]]]].
        rewrite !blk_div, !blk_mod, d1kj_E0 by (auto; lia). unfold jcol. ring.
      - rewrite kk_at. ring. }
  rewrite qf_madd, qf_topleft in P.
  assert (SQ : sym (m * nv) Q) by (intros i j _ _; now apply Qd_sym).
  pose proof (psd_trace (m * nv) _ c SQ (Qd_psd nf k (m * nv) Xi Ui HP W L S)) as T.
  assert (D : sum (m * nv) (fun i => Q i i) <= total_dslack m nf nv k xt jt).
  { rewrite sum_block. unfold total_dslack. apply sum_le. intros s Hs. apply sum_le. intros v Hv.
    unfold Q, Xi, Ui. rewrite vstack_l by (now apply blk_lt). rewrite !blk_div, !blk_mod by auto. now apply Qd_diag. }
  assert (N : 0 <= sum (m * nv) (fun i => c i ^ 2)) by (apply sum_nonneg; intros; apply pow2_ge_0).
  apply (Rmult_le_compat_r _ _ _ N) in D. lra.
Qed.
Lemma soft_gram_soft : gram_soft k.
Proof.
  revert S. clear. induction k as [ad a|k1 IH1 k2 IH2|k1 IH1 k2 IH2]; intro S.
  - destruct a; try exact S. exact I.
  - exact (conj (IH1 (proj1 S)) (IH2 (proj2 S))).
  - exact S.
Qed.
Lemma soft_sep : forall n X, m32_separated nf k n X.
Proof.
  intros n X s t _ _. revert S. clear. induction k as [ad a|k1 IH1 k2 IH2|k1 IH1 k2 IH2]; intro S.
  - destruct a; try exact I. contradiction.
  - exact (conj (IH1 (proj1 S)) (IH2 (proj2 S))).
  - exact (conj (IH1 (proj1 S)) (IH2 (proj2 S))).
Qed.
(** the slack moves from the noise into the derivative matrix *)
Lemma shift_diag : forall s e A, add_diag s A = add_diag (s - e) (add_diag e A).
Proof. intros. extensionality i. extensionality j. unfold add_diag. ring. Qed.
Section C.
Variable la : linalg.
Hypothesis ok : linalg_ok la.
Variable sigma : R.
Variables (m n nv : nat) (xt : Mat) (jt : Ten) (x : Mat).
Hypothesis Hs : total_dslack m nf nv k xt jt < sigma ^ 2.
Let D := d01kj m m nf nv nv k xt xt jt jt.
Let e := total_dslack m nf nv k xt jt.
Lemma sD_sym : sym (m * nv) (add_diag e D).
Proof.
  apply sym_add_diag. intros i j Hi Hj. apply d01kj_trans; auto.
  apply gram_soft_regular; [apply soft_gram_soft|apply soft_sep].
Qed.
Lemma sD_psd : psd (m * nv) (add_diag e D).
Proof.
  intro c. rewrite qf_add_diag.
  pose proof (gram_soft_dgram m nf nv k xt jt HP W L soft_gram_soft (soft_sep m xt) c) as Q.
  fold e in Q. fold D in Q. replace (dot (m * nv) c c) with (sum (m * nv) (fun i => c i ^ 2)); [lra|].
  apply sum_ext. intros. ring.
Qed.
Lemma sJ : forall b v, 0 <= qf (m * nv) (add_diag e D) b + 2 * dot (m * nv) b (wv n (d0kj m n nf nv k xt x jt) v) + qf n (kk nf k x x) v.
Proof.
  apply (joint_of (m * nv) n (madd (jmat m n nv nf k xt jt x)
    (fun i j => if Nat.ltb i (m * nv) then if Nat.ltb j (m * nv) then e * delta i j else 0 else 0))).
  - intro c. rewrite qf_madd, qf_topleft. pose proof (soft_jmat m n nv xt jt x c) as Q. fold e in Q.
    assert (E : qf (m * nv) (fun i j => e * delta i j) c = e * sum (m * nv) (fun i => c i ^ 2)).
    { unfold qf. rewrite <- sum_scal_l. apply sum_ext. intros i Hi.
      rewrite (sum_ext (m * nv) _ (fun j => delta i j * (e * c i * c j))) by (intros; ring).
      rewrite (sum_delta_l (m * nv) i (fun j => e * c i * c j) Hi). ring. }
    rewrite E. lra.
  - intros i j Hi Hj. unfold madd, jmat. rewrite !(proj2 (Nat.ltb_lt _ (m * nv))) by auto. reflexivity.
  - intros i j Hi Hj. unfold madd, jmat. rewrite (proj2 (Nat.ltb_lt i (m * nv))) by auto.
    rewrite (proj2 (Nat.ltb_ge (m * nv + j) (m * nv))) by lia.
    replace (m * nv + j - m * nv)%nat with j by lia. ring.
  - intros i j Hi Hj. unfold madd, jmat. rewrite (proj2 (Nat.ltb_lt i (m * nv))) by auto.
    rewrite (proj2 (Nat.ltb_ge (m * nv + j) (m * nv))) by lia.
    replace (m * nv + j - m * nv)%nat with j by lia. rewrite Rplus_0_r.
    destruct (blk_eq m nv i Hi) as [s [a [Hs' [Ha ->]]]]. now rewrite d0kj_E0, d1kj_E0 by auto.
  - intros i j Hi Hj. unfold madd, jmat.
    rewrite !(proj2 (Nat.ltb_ge (m * nv + _) (m * nv))) by lia.
    replace (m * nv + i - m * nv)%nat with i by lia. replace (m * nv + j - m * nv)%nat with j by lia. ring.
Qed.
Theorem soft_y_cov : let cov := predict_y_derivs_cov la m n nf nv k sigma xt jt x in
  (forall B, meq (m * nv) n (mm (m * nv) (add_diag (sigma ^ 2) (d01kj m m nf nv nv k xt xt jt jt)) B)
      (d0kj m n nf nv k xt x jt) ->
    meq n n cov (fun i j => kk nf k x x i j - mm (m * nv) (tr (d0kj m n nf nv k xt x jt)) B i j)) /\
  sym n cov /\ psd n cov /\ psd n (fun i j => kk nf k x x i j - cov i j).
Proof.
  assert (H0 : 0 < sigma ^ 2 - e) by (unfold e; lra).
  intro cov.
  assert (E : cov = cov_of la (m * nv) (add_diag (sigma ^ 2 - e) (add_diag e D)) (d0kj m n nf nv k xt x jt) (kk nf k x x)).
  { rewrite <- shift_diag. reflexivity. }
  split; [|split; [|split]].
  - intros B HB. rewrite E. rewrite (shift_diag (sigma ^ 2) e) in HB.
    exact (cov_formula la ok (m * nv) n _ _ (kk nf k x x) _ H0 sD_sym sD_psd B HB).
  - rewrite E. apply cov_sym. intros i j _ _. apply kk_sym.
  - rewrite E. exact (cov_psd la ok (m * nv) n _ _ _ _ H0 sD_sym sD_psd sJ).
  - rewrite E. exact (cov_le_prior la ok (m * nv) n _ _ (kk nf k x x) _ H0 sD_sym sD_psd).
Qed.
End C.
End J.
(** the slack of the example is far below a unit noise variance *)
Lemma ex_slack : total_dslack 3 2 2 ex_soft (fun s _ => INR s) (fun _ f v => if Nat.eqb f v then 1 else 0) < 1.
Proof.
  assert (B : forall s v, (v < 2)%nat -> dslack 2 ex_soft (fun _ => INR s) (fun f => if Nat.eqb f v then 1 else 0) <= / 10).
  { intros s v Hv. unfold ex_soft. cbn [dslack].
    pose proof (stat_bounds 2 None (ASE 2) (fun _ => INR s) (fun _ => INR s) I) as B1.
    pose proof (stat_bounds 2 (Some (0 :: nil)%nat) (ASE 3) (fun _ => INR s) (fun _ => INR s) I) as B2.
    set (p := kernel_at 2 (KAtom None (ASE 2)) _ _) in *. set (q := kernel_at 2 (KAtom (Some _) (ASE 3)) _ _) in *.
    assert (T1 : / 10 ^ 12 <= / 10 ^ 3) by (apply Rinv_le_contravar; [lra|]; apply Rle_pow; [lra|lia]).
    assert (T2 : / 10 ^ 18 <= / 10 ^ 3) by (apply Rinv_le_contravar; [lra|]; apply Rle_pow; [lra|lia]).
    assert (T0 : 0 < / 10 ^ 12) by (apply Rinv_0_lt_compat, pow_lt; lra).
    assert (T0' : 0 < / 10 ^ 18) by (apply Rinv_0_lt_compat, pow_lt; lra).
    set (a := / 10 ^ 12) in *. set (b := / 10 ^ 18) in *.
    assert (T3 : / 10 ^ 3 = / 1000) by (f_equal; ring). rewrite T3 in *.
    assert (V : v = 0%nat \/ v = 1%nat) by lia. unfold active, gather.
    destruct V as [-> | ->]; simpl; nra. }
  unfold total_dslack.
  assert (E : sum 3 (fun s => sum 2 (fun v => dslack 2 ex_soft (fun _ => INR s) (fun f => if Nat.eqb f v then 1 else 0)))
    <= sum 3 (fun _ => sum 2 (fun _ => / 10))).
  { apply sum_le. intros s Hs. apply sum_le. intros v Hv. now apply B. }
  eapply Rle_lt_trans; [exact E|]. simpl. lra.
Qed.
