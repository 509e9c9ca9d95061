(** Statements in the form of Props/SparseProps.v. *)
From Coq Require Import Reals Arith Lia Lra List.
From Verif Require Import Base.Sums Base.Mat Base.PSD Model.Arrays Model.Kernels Model.LinAlg Model.Operations
  Model.RPCholesky Model.GPR Model.SGPR Spec.KernelSpec Spec.Det Spec.MVN Spec.GPSpec
  Proofs.Loops Proofs.KernelSym Proofs.KernelDerivs Proofs.LinAlgFacts Proofs.Matvec Proofs.JetPSD Proofs.RPChol
  Proofs.GPRFacts Proofs.GPRCov Proofs.GPRLml Proofs.GPRPack Proofs.SGPRFacts Proofs.SGPRIter Spec.SparseSpec Proofs.SGPRCov Proofs.SGPRExamples.
Open Scope R_scope.

Lemma sg_predict_at : forall m nf k xl x c mu t j,
  sg_predict_dense m nf k xl x c mu t j = mu + sum m (fun s => kernel_at nf k (x t) (xl s) * c s j).
Proof. intros. unfold sg_predict_dense, mm. cbv zeta. f_equal. apply sum_ext. intros. now rewrite kk_at. Qed.
Lemma rp_fit_ok : forall la, linalg_ok la -> forall choose n o nf nl k sigma x y mf,
  all_atoms (fun _ a => psd_atom a) k -> (forall i p, (choose i p < n)%nat) ->
  let fit := rp_fit_dense la choose n o nf nl k sigma x y mf in
  let xl := snd fit in
  let c := fst (fst fit) in
  (forall l, (l < nl)%nat -> exists p, (p < n)%nat /\ xl l = x p) /\
  forall j, (j < o)%nat -> forall c',
  let r := fun i => y i j - mf n o y in
  sparse_objective nl n sigma (kk nf k xl xl) (kk nf k xl x) r (fun a => c a j)
    + / 10 ^ 10 * sum nl (fun a => (c' a - c a j) ^ 2)
  <= sparse_objective nl n sigma (kk nf k xl xl) (kk nf k xl x) r c'.
Proof.
  intros la ok choose n o nf nl k sigma x y mf HP HC fit xl c. split.
  - intros l Hl. exists (rp_locs choose n nf k x nl l). split; [now apply rp_locs_lt|reflexivity].
  - intros j Hj c'. exact (sg_fit_min la ok nl n o nf k sigma xl x y mf HP j Hj c').
Qed.
Lemma rp_fit_iter_eq : forall la, linalg_ok la -> forall choose n o nf nl k sigma x y mf,
  all_atoms (fun _ a => psd_atom a) k ->
  snd (rp_fit_iter la choose n o nf nl k sigma x y mf) = snd (rp_fit_dense la choose n o nf nl k sigma x y mf) /\
  meq nl o (fst (fst (rp_fit_iter la choose n o nf nl k sigma x y mf))) (fst (fst (rp_fit_dense la choose n o nf nl k sigma x y mf))).
Proof. intros. split; [reflexivity|]. now apply sg_fit_iter_eq. Qed.
Lemma sg_operators : forall m n nf k sigma x1 x2 z i j, (i < m)%nat ->
  fst (sg_Ax_lhs_fun m n nf k sigma x1 x2) z i j = mm m (fst (sg_A_lhs n nf k sigma x1 x2)) z i j /\
  snd (sg_Ax_lhs_fun m n nf k sigma x1 x2) z i j = mm n (snd (sg_A_lhs n nf k sigma x1 x2)) z i j.
Proof. intros. split; [now apply sg_Ax_lhs|now apply sg_Ax_rhs]. Qed.
Lemma sg_jaccoef_eq : forall m n nf nv nd k xl jl x jac c mu t u,
  wf nf k -> ls_nonzero k -> no_m52 k -> regular nf k m n xl x -> (t < n)%nat -> (u < nd)%nat ->
  sg_predict_derivs_jaccoef m n nf nd k xl x jac mu (jaccoef_of nv c jl) t u
  = sg_predict_derivs_dense m n nf nv nd k xl jl x jac c mu t u.
Proof.
  intros m n nf nv nd k xl jl x jac c mu t u W L N Rg Ht Hu.
  pose proof (predict_derivs_jaccoef_eq m n nf nv nd k 0 xl jl x jac c mu t u W L N Ht Hu) as E.
  change (sg_predict_derivs_jaccoef m n nf nd k xl x jac mu (jaccoef_of nv c jl) t u) with (predict_derivs_jaccoef m n nf nd k xl x jac mu (jaccoef_of nv c jl) t u).
  rewrite E. rewrite <- (sg_predict_derivs_iter_eq m n nf nv nd k 0) by auto. rewrite <- predict_derivs_iter_eq by auto.
  reflexivity.
Qed.
Lemma sg_jaccoef_values_eq : forall m n nf nv k xl jl x c mu t j,
  wf nf k -> ls_nonzero k -> no_m52 k -> (t < n)%nat -> j = O ->
  sg_predict_y_derivs_jaccoef m n nf k xl x mu (jaccoef_of nv c jl) t j
  = sg_predict_y_derivs_dense m n nf nv k xl jl x c mu t j.
Proof. exact predict_y_derivs_jaccoef_eq. Qed.
Lemma sg_Hx_nystrom : forall la, linalg_ok la -> forall m n nf k sigma xl x, all_atoms (fun _ a => psd_atom a) k ->
  exists M, nystrom m n (kk nf k xl xl) (kk nf k xl x) M /\
  forall z i j, (i < n)%nat -> sg_Hx_fun la m n nf k sigma xl x z i j = mm n (noisy sigma M) z i j.
Proof.
  intros la ok m n nf k sigma xl x HP. exists (H_of la m (kk nf k xl xl) (kk nf k xl x)). split.
  - apply (H_nystrom la ok). now apply kk_psd.
  - intros. now apply sg_Hx.
Qed.
Lemma sg_Hxd_nystrom : forall la, linalg_ok la -> forall m n nf nd k sigma x1 J1 x2 J2,
  all_atoms (fun _ a => psd_atom a) k -> wf nf k -> ls_nonzero k -> dgram_ok k ->
  exists M, nystrom (m * nd) (n * nd) (d01kj m m nf nd nd k x1 x1 J1 J1) (d01kj m n nf nd nd k x1 x2 J1 J2) M /\
  forall z i j, (i < n * nd)%nat -> sg_Hx_derivs_fun la m n nf nd k sigma x1 J1 x2 J2 z i j
    = sum (n * nd) (fun c => (M i ((c mod n) * nd + c / n)%nat + (sigma ^ 2 + / 10 ^ 10) * delta i c) * z c j).
Proof.
  intros la ok m n nf nd k sigma x1 J1 x2 J2 HP W L D. exists (H_of la (m * nd) (d01kj m m nf nd nd k x1 x1 J1 J1) (d01kj m n nf nd nd k x1 x2 J1 J2)). split.
  - apply (H_nystrom la ok). now apply dgram_psd.
  - intros z i j Hi. apply sg_Hxd; auto. intros ? ? _ _. now apply dgram_regular.
Qed.
Section PC.
  Variable la : linalg.
  Hypothesis ok : linalg_ok la.
  Variables (nf : nat) (k : kexp).
  Hypothesis HP : all_atoms (fun _ a => psd_atom a) k.
  Lemma tr_kk : forall x y i j, kk nf k x y i j = tr (kk nf k y x) i j.
  Proof. intros. unfold tr. apply kk_sym. Qed.
  Lemma sg_predict_cov_formula : forall sigma m n xl x B1 B2,
    meq m n (mm m (fun i j => kk nf k xl xl i j + / 10 ^ 10 * delta i j) B1) (kk nf k xl x) ->
    meq m n (mm m (fun i j => sigma ^ 2 * kk nf k xl xl i j + mm n (kk nf k xl x) (kk nf k x xl) i j + / 10 ^ 10 * delta i j) B2)
      (kk nf k xl x) ->
    meq n n (sg_predict_cov la m n nf k sigma xl x)
      (fun i j => kk nf k x x i j - mm m (kk nf k x xl) B1 i j + sigma ^ 2 * mm m (kk nf k x xl) B2 i j).
  Proof.
    intros sigma m n xl x B1 B2 H1 H2 i j Hi Hj. unfold sg_predict_cov, sg_A_lhs. cbn [fst snd].
    rewrite (sg_cov_formula la ok m n sigma _ _ (kk nf k x x) (kk_symm nf k m xl) (kk_psd nf k m xl HP) B1 B2 H1); auto.
    - unfold mm. f_equal.
      + f_equal. apply sum_ext. intros. rewrite (tr_kk x xl). reflexivity.
      + f_equal. apply sum_ext. intros. rewrite (tr_kk x xl). reflexivity.
    - intros a b Ha Hb. rewrite <- (H2 a b Ha Hb). unfold mm at 1 3. apply sum_ext. intros l _. f_equal. unfold sg_lhs. f_equal. f_equal. unfold mm. apply sum_ext. intros. rewrite (tr_kk x). reflexivity.
  Qed.
  Lemma sg_predict_cov_order : forall sigma m n xl x,
    sym n (sg_predict_cov la m n nf k sigma xl x) /\ psd n (sg_predict_cov la m n nf k sigma xl x) /\
    (sigma ^ 2 <= 1 -> psd n (fun i j => kk nf k x x i j - sg_predict_cov la m n nf k sigma xl x i j)).
  Proof.
    intros sigma m n xl x. split; [|split].
    - apply (sg_cov_sym la m n sigma). apply kk_symm.
    - apply (sg_cov_psd la ok m n sigma); [apply kk_symm|now apply kk_psd|now apply kk_joint].
    - apply (sg_cov_le_prior la ok m n sigma); [apply kk_symm|now apply kk_psd].
  Qed.
  Lemma sg_predict_cov_batch : forall sigma m n p xl x,
    psd n (fun i j => sg_predict_cov la m n nf k sigma xl x i j - sg_predict_cov la m (n + p) nf k sigma xl x i j).
  Proof.
    intros sigma m n p xl x. apply (sg_cov_batch la ok); [apply kk_symm|now apply kk_psd|apply meq_refl|apply meq_refl].
  Qed.
End PC.
Lemma ones_covs : forall la, linalg_ok la ->
  (forall p, predict_cov la p 1 lin 1 ones ones O O = 1 - INR p / (INR p + 1 + / 10 ^ 10)) /\
  (forall n, (0 < n)%nat -> sg_predict_cov la 1 n 1 lin 1 ones ones O O = 1 - / (1 + / 10 ^ 10) + / (1 + INR n + / 10 ^ 10)).
Proof. intros la ok. split; [now apply gpr_cov_ones|now apply sg_cov_ones]. Qed.
