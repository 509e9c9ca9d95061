(** Likelihood of derivatives in SGPR, and SGPR with random inducing points. *)
From Coq Require Import Reals Arith Lia Lra.
From Verif Require Import Base.Sums Base.Mat Base.PSD Model.Arrays Model.Kernels Model.LinAlg Model.Operations Model.RPCholesky Model.GPR Model.SGPR Model.SGPRMore.
From Verif Require Import Spec.KernelSpec Spec.Det Spec.MVN Spec.GPSpec Spec.SparseSpec.
From Verif Require Import Proofs.LinAlgFacts Proofs.KernelSym Proofs.KernelDerivs Proofs.JetPSD Proofs.GPRFacts Proofs.GPRCov Proofs.DetFacts Proofs.GPRLml
  Proofs.SGPRFacts Proofs.SGPRIter Proofs.SGPRCov Proofs.SGPRPack.
Open Scope R_scope.

Section More.
  Variable la : linalg.
  Hypothesis ok : linalg_ok la.
  (** any kernel matrices: the value of sg_lml_of, and of the iterative formula, for one column *)
  Lemma sg_of_mvn : forall m n sigma Kmm Kmn Y M b, (0 < n)%nat -> sym m Kmm -> psd m Kmm -> nystrom m n Kmm Kmn M ->
    veq n (mv n (noisy sigma M) b) (fun i => Y i O) ->
    INR n * sg_lml_of la m n 1 sigma Kmm Kmn Y = ln (mvn_pdf n (noisy sigma M) (fun i => Y i O) b).
  Proof.
    intros m n sigma Kmm Kmn Y M b Hn S P HM Hb.
    destruct (nystrom_psd m n _ _ M S P HM) as [SM PM]. destruct (noisy_sp n sigma M SM PM) as [SN PN].
    rewrite (sg_lml_gen la ok m n 1 sigma _ _ Y M (fun i _ => b i) Hn S P HM).
    - rewrite ln_mvn by (exact (proj1 (proj2 (det_chol (ok_chol la ok n _ SN PN))))). cbn [sum]. rewrite Rplus_0_l. reflexivity.
    - intros i j Hi Hj. assert (j = O) by lia. subst. exact (Hb i Hi).
  Qed.
  Lemma nystrom_det : forall m n sigma Kmm Kmn M H, sym m Kmm -> psd m Kmm -> nystrom m n Kmm Kmn M -> nystrom m n Kmm Kmn H ->
    meq n n (noisy sigma M) (noisy sigma H).
  Proof.
    intros m n sigma Kmm Kmn M H S P HM HH. pose proof (sg_C_nystrom la ok m n sigma _ _ M S P HM) as E1. pose proof (sg_C_nystrom la ok m n sigma _ _ H S P HH) as E2.
    eapply meq_trans; [apply meq_sym, E1|exact E2].
  Qed.
  Lemma sg_iter_mvn : forall m n sigma Kmm Kmn Y M b matvec, (0 < n)%nat -> sym m Kmm -> psd m Kmm -> nystrom m n Kmm Kmn M ->
    (forall z, meq n 1 (matvec z) (mm n (noisy sigma M) z)) ->
    veq n (mv n (noisy sigma M) b) (fun i => Y i O) ->
    INR n * lml_iter_of n 1 (la_cg la n 1 matvec Y no_precond) Y (ln (det n (noisy sigma M)))
    = ln (mvn_pdf n (noisy sigma M) (fun i => Y i O) b).
  Proof.
    intros m n sigma Kmm Kmn Y M b matvec Hn S P HM Hv Hb.
    destruct (nystrom_psd m n _ _ M S P HM) as [SM PM]. destruct (noisy_sp n sigma M SM PM) as [SN PN].
    set (c := la_cg la n 1 matvec Y no_precond).
    assert (Hc : meq n 1 (mm n (noisy sigma M) c) Y).
    { apply (ok_cg la ok) with (P := eye); auto.
      - intros i j _ _. apply delta_sym.
      - intros v Hv'. rewrite qf_eye. now apply dot_pos.
      - intros Z. apply meq_sym, mm_eye_l. }
    assert (E : meq n 1 c (fun i _ => b i)).
    { apply (solve_unique n 1 _ _ _ (pd_nonsing n _ PN)). eapply meq_trans; [exact Hc|]. intros i j Hi Hj.
      assert (j = O) by lia. subst j. symmetry. exact (Hb i Hi). }
    rewrite ln_mvn by (exact (proj1 (proj2 (det_chol (ok_chol la ok n _ SN PN))))).
    unfold lml_iter_of. cbn [sum]. replace (mm n (tr Y) c 0%nat 0%nat) with (dot n (fun i => Y i O) b).
    2:{ unfold dot, mm, tr. apply sum_ext. intros i Hi. now rewrite (E i O Hi (le_n 1)). }
    field. apply not_0_INR; lia.
  Qed.

  (** ** the likelihood of derivatives *)
  Section D.
  Variables (nf : nat) (k : kexp).
  Hypothesis HP : all_atoms (fun _ a => psd_atom a) k.
  Hypothesis W : wf nf k.
  Hypothesis L : ls_nonzero k.
  Hypothesis D : dgram_ok k.
  Lemma sg_lml_derivs_one : forall m n sigma xl jl x y jac mf,
    sg_lml_derivs_dense la m n nf 1 1 k sigma xl jl x y jac mf
    = Some (sg_lml_of la m n 1 sigma (d01kj m m nf 1 1 k xl xl jl jl) (d01kj m n nf 1 1 k xl x jl jac) (fun i j => y i j - mf n 1%nat y)).
  Proof. intros. unfold sg_lml_derivs_dense. cbn [Nat.eqb andb orb]. rewrite Nat.mul_1_r. reflexivity. Qed.
  Lemma dd1_sym : forall m x jac, sym m (d01kj m m nf 1 1 k x x jac jac).
  Proof. intros m x jac. pose proof (dd_symm nf k W L D m 1 x jac) as H. now rewrite Nat.mul_1_r in H. Qed.
  Lemma dd1_psd : forall m x jac, psd m (d01kj m m nf 1 1 k x x jac jac).
  Proof. intros m x jac. pose proof (dgram_psd m nf 1 k x jac HP W L D) as H. now rewrite Nat.mul_1_r in H. Qed.
  Lemma sg_lml_derivs_mvn : forall m n sigma xl jl x y jac mf M b, (0 < n)%nat ->
    nystrom m n (d01kj m m nf 1 1 k xl xl jl jl) (d01kj m n nf 1 1 k xl x jl jac) M ->
    veq n (mv n (noisy sigma M) b) (fun i => y i O - mf n 1%nat y) ->
    exists v, sg_lml_derivs_dense la m n nf 1 1 k sigma xl jl x y jac mf = Some v /\
    INR n * v = ln (mvn_pdf n (noisy sigma M) (fun i => y i O - mf n 1%nat y) b).
  Proof.
    intros m n sigma xl jl x y jac mf M b Hn HM Hb. eexists. split; [apply sg_lml_derivs_one|].
    apply (sg_of_mvn m n sigma _ _ (fun i j => y i j - mf n 1%nat y) M b Hn (dd1_sym m xl jl) (dd1_psd m xl jl) HM Hb).
  Qed.
  Lemma sg_lml_derivs_iter_mvn : forall m n nd sigma xl jl x y jac mf M b, (0 < n * nd)%nat -> n = 1%nat \/ nd = 1%nat ->
    nystrom (m * nd) (n * nd) (d01kj m m nf nd nd k xl xl jl jl) (d01kj m n nf nd nd k xl x jl jac) M ->
    veq (n * nd) (mv (n * nd) (noisy sigma M) b) (fun i => flat nd y i O - mf (n * nd)%nat 1%nat (flat nd y)) ->
    INR (n * nd) * sg_lml_derivs_iter la m n nf nd k sigma xl jl x y jac mf (ln (det (n * nd) (noisy sigma M)))
    = ln (mvn_pdf (n * nd) (noisy sigma M) (fun i => flat nd y i O - mf (n * nd)%nat 1%nat (flat nd y)) b).
  Proof.
    intros m n nd sigma xl jl x y jac mf M b Hn H1 HM Hb. unfold sg_lml_derivs_iter. cbv zeta.
    pose proof (dd_symm nf k W L D m nd xl jl) as S. pose proof (dgram_psd m nf nd k xl jl HP W L D) as P.
    pose proof (nystrom_det (m * nd) (n * nd) sigma _ _ M _ S P HM (H_nystrom la ok (m * nd) (n * nd) _ _ P)) as E.
    apply (sg_iter_mvn (m * nd) (n * nd) sigma _ _ (fun i j => flat nd y i j - mf (n * nd)%nat 1%nat (flat nd y)) M b _ Hn S P HM); [|exact Hb].
    intros z i j Hi Hj. rewrite (sg_Hxd la) by (auto; intros ? ? _ _; now apply dgram_regular). unfold mm. apply sum_ext. intros c Hc. rewrite shuffle_id by auto.
    rewrite (E i c Hi Hc). reflexivity.
  Qed.
  End D.

  (** ** random inducing points *)
  Section RP.
  Variables (choose : nat -> Vec -> nat) (n nf nl : nat) (k : kexp).
  Hypothesis HP : all_atoms (fun _ a => psd_atom a) k.
  Hypothesis HC : forall i p, (choose i p < n)%nat.
  Lemma rp_fit_derivs_ok : wf nf k -> ls_nonzero k -> dgram_ok k -> forall nd sigma x y jac mf,
    let fit := rp_fit_derivs_dense la choose n nf nd nl k sigma x y jac mf in
    let c := fst (fst (fst fit)) in
    let xl := snd (fst fit) in
    let jl := snd fit in
    (forall l, (l < nl)%nat -> exists p, (p < n)%nat /\ xl l = x p /\ jl l = jac p) /\
    forall c',
    let r := fun i => flat nd y i O - mf (n * nd)%nat 1%nat (flat nd y) in
    let Kmm := d01kj nl nl nf nd nd k xl xl jl jl in
    let Kmn := d01kj nl n nf nd nd k xl x jl jac in
    sparse_objective (nl * nd) (n * nd) sigma Kmm Kmn r (fun a => c a O)
      + / 10 ^ 10 * sum (nl * nd) (fun a => (c' a - c a O) ^ 2)
    <= sparse_objective (nl * nd) (n * nd) sigma Kmm Kmn r c'.
  Proof.
    intros W L D nd sigma x y jac mf fit c xl jl. split.
    - intros l Hl. exists (rp_locs choose n nf k x nl l). split; [now apply rp_locs_lt|split; reflexivity].
    - intros c'. exact (sg_fit_derivs_min la ok nl n nf nd nd k sigma xl jl x y jac mf HP W L D c').
  Qed.
  Lemma rp_fit_derivs_iter_ok : wf nf k -> ls_nonzero k -> dgram_ok k -> forall nd sigma x y jac mf, nl = 1%nat \/ nd = 1%nat ->
    let fit := rp_fit_derivs_dense la choose n nf nd nl k sigma x y jac mf in
    let fit' := rp_fit_derivs_iter la choose n nf nd nl k sigma x y jac mf in
    snd fit' = snd fit /\ snd (fst fit') = snd (fst fit) /\ snd (fst (fst fit')) = snd (fst (fst fit)) /\
    meq (nl * nd) 1 (fst (fst (fst fit'))) (fst (fst (fst fit))).
  Proof.
    intros W L D nd sigma x y jac mf H1 fit fit'. refine (conj eq_refl (conj eq_refl (conj eq_refl _))).
    exact (sg_fit_derivs_iter_eq la ok nl n nf nd nd k sigma _ _ x y jac mf HP W L D H1).
  Qed.
  Lemma rp_lml_ok : forall sigma x y mf, exists p : nat -> nat, (forall l, (l < nl)%nat -> (p l < n)%nat /\ snd (rp_fit_dense la choose n 1 nf nl k sigma x y mf) l = x (p l)) /\
    let xl := fun l => x (p l) in
    forall M b, (0 < n)%nat -> nystrom nl n (kk nf k xl xl) (kk nf k xl x) M ->
    veq n (mv n (noisy sigma M) b) (fun i => y i O - mf n 1%nat y) ->
    INR n * rp_lml_dense la choose n 1 nf nl k sigma x y mf = ln (mvn_pdf n (noisy sigma M) (fun i => y i O - mf n 1%nat y) b) /\
    rp_lml_iter la choose n 1 nf nl k sigma x y mf (ln (det n (noisy sigma M))) = rp_lml_dense la choose n 1 nf nl k sigma x y mf.
  Proof.
    intros sigma x y mf. exists (rp_locs choose n nf k x nl). split; [intros l Hl; split; [now apply rp_locs_lt|reflexivity]|].
    intros xl M b Hn HM Hb. split.
    - exact (sg_lml_mvn la ok nl n nf k sigma xl x y mf M b Hn HP HM Hb).
    - exact (sg_lml_iter_eq la ok nl n nf k sigma xl x y mf M Hn HP HM).
  Qed.
  Lemma rp_lml_derivs_ok : wf nf k -> ls_nonzero k -> dgram_ok k -> forall sigma x y jac mf,
    exists p : nat -> nat, (forall l, (l < nl)%nat -> (p l < n)%nat /\
    snd (fst (rp_fit_derivs_dense la choose n nf 1 nl k sigma x y jac mf)) l = x (p l) /\ snd (rp_fit_derivs_dense la choose n nf 1 nl k sigma x y jac mf) l = jac (p l)) /\
    let xl := fun l => x (p l) in
    let jl := fun l => jac (p l) in
    forall M b, (0 < n)%nat -> nystrom nl n (d01kj nl nl nf 1 1 k xl xl jl jl) (d01kj nl n nf 1 1 k xl x jl jac) M ->
    veq n (mv n (noisy sigma M) b) (fun i => y i O - mf n 1%nat y) ->
    exists v, rp_lml_derivs_dense la choose n nf 1 nl k sigma x y jac mf = Some v /\
    INR n * v = ln (mvn_pdf n (noisy sigma M) (fun i => y i O - mf n 1%nat y) b).
  Proof.
    intros W L D sigma x y jac mf. exists (rp_locs choose n nf k x nl). split; [intros l Hl; split; [now apply rp_locs_lt|split; reflexivity]|].
    intros xl jl M b Hn HM Hb. exact (sg_lml_derivs_mvn nf k HP W L D nl n sigma xl jl x y jac mf M b Hn HM Hb).
  Qed.
  Lemma rp_lml_derivs_iter_ok : wf nf k -> ls_nonzero k -> dgram_ok k -> forall nd sigma x y jac mf,
    exists p : nat -> nat, (forall l, (l < nl)%nat -> (p l < n)%nat /\
    snd (fst (rp_fit_derivs_dense la choose n nf nd nl k sigma x y jac mf)) l = x (p l) /\ snd (rp_fit_derivs_dense la choose n nf nd nl k sigma x y jac mf) l = jac (p l)) /\
    let xl := fun l => x (p l) in
    let jl := fun l => jac (p l) in
    forall M b, (0 < n * nd)%nat -> n = 1%nat \/ nd = 1%nat ->
    nystrom (nl * nd) (n * nd) (d01kj nl nl nf nd nd k xl xl jl jl) (d01kj nl n nf nd nd k xl x jl jac) M ->
    veq (n * nd) (mv (n * nd) (noisy sigma M) b) (fun i => flat nd y i O - mf (n * nd)%nat 1%nat (flat nd y)) ->
    INR (n * nd) * rp_lml_derivs_iter la choose n nf nd nl k sigma x y jac mf (ln (det (n * nd) (noisy sigma M)))
    = ln (mvn_pdf (n * nd) (noisy sigma M) (fun i => flat nd y i O - mf (n * nd)%nat 1%nat (flat nd y)) b).
  Proof.
    intros W L D nd sigma x y jac mf. exists (rp_locs choose n nf k x nl). split; [intros l Hl; split; [now apply rp_locs_lt|split; reflexivity]|].
    intros xl jl M b Hn H1 HM Hb. exact (sg_lml_derivs_iter_mvn nf k HP W L D nl n nd sigma xl jl x y jac mf M b Hn H1 HM Hb).
  Qed.
  End RP.
End More.
