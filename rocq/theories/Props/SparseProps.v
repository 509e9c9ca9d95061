(** C47, C48, C57: sparse regression (SGPR, SGPR_RPChol). *)
From Coq Require Import Reals Arith.
From Verif Require Import Base.Sums Base.Mat Base.PSD Model.Arrays Model.Kernels Model.LinAlg Model.Operations Model.RPCholesky Model.GPR Model.SGPR Model.SGPRMore.
From Verif Require Import Spec.KernelSpec Spec.Det Spec.MVN Spec.GPSpec Spec.SparseSpec.
From Verif Require Import Proofs.KernelSym Proofs.KernelDerivs Proofs.JetPSD Proofs.GPRFacts Proofs.GPRPack Proofs.GPRExamples
  Proofs.SGPRFacts Proofs.SGPRIter Proofs.SGPRCov Proofs.SGPRPack Proofs.SGPRMoreFacts Proofs.SGPRExamples
  Spec.CloseSpec Proofs.GPRClose.
Open Scope R_scope.

(** ** C47; c' is any competitor, and the excess of its objective bounds its distance *)
Theorem C47_minimiser : forall la, linalg_ok la -> forall m n o nf k sigma xl x y mf,
  all_atoms (fun _ a => psd_atom a) k -> forall j, (j < o)%nat -> forall c',
  let c := fst (sg_fit_dense la m n o nf k sigma xl x y mf) in
  let r := fun i => y i j - mf n o y in
  sparse_objective m n sigma (kk nf k xl xl) (kk nf k xl x) r (fun a => c a j)
    + / 10 ^ 10 * sum m (fun a => (c' a - c a j) ^ 2)
  <= sparse_objective m n sigma (kk nf k xl xl) (kk nf k xl x) r c'.
Proof. exact sg_fit_min. Qed.
Print Assumptions C47_minimiser.
Theorem C47_minimiser_derivs : forall la, linalg_ok la -> forall m n nf nv nd k sigma xl jl x y jac mf,
  all_atoms (fun _ a => psd_atom a) k -> wf nf k -> ls_nonzero k -> dgram_ok k -> forall c',
  let c := fst (sg_fit_derivs_dense la m n nf nv nd k sigma xl jl x y jac mf) in
  let r := fun i => flat nd y i O - mf (n * nd)%nat 1%nat (flat nd y) in
  let Kmm := d01kj m m nf nv nv k xl xl jl jl in
  let Kmn := d01kj m n nf nv nd k xl x jl jac in
  sparse_objective (m * nv) (n * nd) sigma Kmm Kmn r (fun a => c a O)
    + / 10 ^ 10 * sum (m * nv) (fun a => (c' a - c a O) ^ 2)
  <= sparse_objective (m * nv) (n * nd) sigma Kmm Kmn r c'.
Proof. exact sg_fit_derivs_min. Qed.
Print Assumptions C47_minimiser_derivs.
(** inducing points = training points: the distance between both predictions, at any point *)
Theorem C47_gpr : forall la, linalg_ok la -> forall m o nf k sigma x y mf xs t j,
  all_atoms (fun _ a => psd_atom a) k -> (j < o)%nat ->
  let cs := fst (sg_fit_dense la m m o nf k sigma x x y mf) in
  let cg := fst (fit_dense la m o nf k sigma x y mf) in
  let mu := mf m o y in
  sigma ^ 2 * (sigma ^ 2 + / 10 ^ 10) ^ 2
    * (sg_predict_dense m nf k x xs cs mu t j - predict_dense m nf k sigma x xs cg mu t j) ^ 2
  <= kernel_at nf k (xs t) (xs t) * (/ 10 ^ 10 * (1 + / 10 ^ 10) / 4) * sum m (fun i => (y i j - mu) ^ 2).
Proof. exact sg_vs_gpr. Qed.
Print Assumptions C47_gpr.
Theorem C47_prediction : forall m nf k xl x c mu t j,
  sg_predict_dense m nf k xl x c mu t j = mu + sum m (fun s => kernel_at nf k (x t) (xl s) * c s j).
Proof. exact sg_predict_at. Qed.
Print Assumptions C47_prediction.
(** the log marginal likelihood is that of the Nystrom covariance *)
Theorem C47_likelihood : forall la, linalg_ok la -> forall m n nf k sigma xl x y mf M b, (0 < n)%nat ->
  all_atoms (fun _ a => psd_atom a) k -> nystrom m n (kk nf k xl xl) (kk nf k xl x) M ->
  veq n (mv n (noisy sigma M) b) (fun i => y i O - mf n 1%nat y) ->
  INR n * sg_lml_dense la m n 1 nf k sigma xl x y mf = ln (mvn_pdf n (noisy sigma M) (fun i => y i O - mf n 1%nat y) b).
Proof. exact sg_lml_mvn. Qed.
Print Assumptions C47_likelihood.
(** SGPR_RPChol: the inducing points are training rows, whatever the pivots drawn, and the fit is optimal for them *)
Theorem C47_rpchol : forall la, linalg_ok la -> forall choose n o nf nl k sigma x y mf,
  all_atoms (fun _ a => psd_atom a) k -> (forall i p, (choose i p < n)%nat) ->
  let fit := rp_fit_dense la choose n o nf nl k sigma x y mf in
  let xl := snd fit in
  let c := fst (fst fit) in
  (forall l, (l < nl)%nat -> exists p, (p < n)%nat /\ xl l = x p) /\
  forall j, (j < o)%nat -> forall c',
  let r := fun i => y i j - mf n o y in
  sparse_objective nl n sigma (kk nf k xl xl) (kk nf k xl x) r (fun a => c a j)
    + / 10 ^ 10 * sum nl (fun a => (c' a - c a j) ^ 2)
  <= sparse_objective nl n sigma (kk nf k xl xl) (kk nf k xl x) r c'.
Proof. exact rp_fit_ok. Qed.
Print Assumptions C47_rpchol.
Theorem C47_rpchol_iterative : forall la, linalg_ok la -> forall choose n o nf nl k sigma x y mf,
  all_atoms (fun _ a => psd_atom a) k ->
  snd (rp_fit_iter la choose n o nf nl k sigma x y mf) = snd (rp_fit_dense la choose n o nf nl k sigma x y mf) /\
  meq nl o (fst (fst (rp_fit_iter la choose n o nf nl k sigma x y mf))) (fst (fst (rp_fit_dense la choose n o nf nl k sigma x y mf))).
Proof. exact rp_fit_iter_eq. Qed.
Print Assumptions C47_rpchol_iterative.
(** with derivatives: the inducing points are training rows with their own jacobians *)
Theorem C47_rpchol_derivs : forall la, linalg_ok la -> forall choose n nf nl k,
  all_atoms (fun _ a => psd_atom a) k -> (forall i p, (choose i p < n)%nat) -> wf nf k -> ls_nonzero k -> dgram_ok k ->
  forall nd sigma x y jac mf,
  let fit := rp_fit_derivs_dense la choose n nf nd nl k sigma x y jac mf in
  let c := fst (fst (fst fit)) in
  let xl := snd (fst fit) in
  let jl := snd fit in
  (forall l, (l < nl)%nat -> exists p, (p < n)%nat /\ xl l = x p /\ jl l = jac p) /\
  forall c',
  let r := fun i => flat nd y i O - mf (n * nd)%nat 1%nat (flat nd y) in
  let Kmm := d01kj nl nl nf nd nd k xl xl jl jl in
  let Kmn := d01kj nl n nf nd nd k xl x jl jac in
  sparse_objective (nl * nd) (n * nd) sigma Kmm Kmn r (fun a => c a O)
    + / 10 ^ 10 * sum (nl * nd) (fun a => (c' a - c a O) ^ 2)
  <= sparse_objective (nl * nd) (n * nd) sigma Kmm Kmn r c'.
Proof. exact rp_fit_derivs_ok. Qed.
Print Assumptions C47_rpchol_derivs.
Theorem C47_rpchol_derivs_iterative : forall la, linalg_ok la -> forall choose n nf nl k,
  all_atoms (fun _ a => psd_atom a) k -> wf nf k -> ls_nonzero k -> dgram_ok k ->
  forall nd sigma x y jac mf, nl = 1%nat \/ nd = 1%nat ->
  let fit := rp_fit_derivs_dense la choose n nf nd nl k sigma x y jac mf in
  let fit' := rp_fit_derivs_iter la choose n nf nd nl k sigma x y jac mf in
  snd fit' = snd fit /\ snd (fst fit') = snd (fst fit) /\ snd (fst (fst fit')) = snd (fst (fst fit)) /\
  meq (nl * nd) 1 (fst (fst (fst fit'))) (fst (fst (fst fit))).
Proof. exact rp_fit_derivs_iter_ok. Qed.
Print Assumptions C47_rpchol_derivs_iterative.
(** the likelihood of SGPR_RPChol is that of SGPR at the rows drawn by the fit *)
Theorem C47_rpchol_likelihood : forall la, linalg_ok la -> forall choose n nf nl k,
  all_atoms (fun _ a => psd_atom a) k -> (forall i p, (choose i p < n)%nat) ->
  forall sigma x y mf, exists p : nat -> nat, (forall l, (l < nl)%nat -> (p l < n)%nat /\ snd (rp_fit_dense la choose n 1 nf nl k sigma x y mf) l = x (p l)) /\
  let xl := fun l => x (p l) in
  forall M b, (0 < n)%nat -> nystrom nl n (kk nf k xl xl) (kk nf k xl x) M ->
  veq n (mv n (noisy sigma M) b) (fun i => y i O - mf n 1%nat y) ->
  INR n * rp_lml_dense la choose n 1 nf nl k sigma x y mf = ln (mvn_pdf n (noisy sigma M) (fun i => y i O - mf n 1%nat y) b) /\
  rp_lml_iter la choose n 1 nf nl k sigma x y mf (ln (det n (noisy sigma M))) = rp_lml_dense la choose n 1 nf nl k sigma x y mf.
Proof. exact rp_lml_ok. Qed.
Print Assumptions C47_rpchol_likelihood.
(** one derivative per sample, the only case the dense likelihood of derivatives accepts *)
Theorem C47_likelihood_derivs : forall la, linalg_ok la -> forall nf k,
  all_atoms (fun _ a => psd_atom a) k -> wf nf k -> ls_nonzero k -> dgram_ok k ->
  forall m n sigma xl jl x y jac mf M b, (0 < n)%nat ->
  nystrom m n (d01kj m m nf 1 1 k xl xl jl jl) (d01kj m n nf 1 1 k xl x jl jac) M ->
  veq n (mv n (noisy sigma M) b) (fun i => y i O - mf n 1%nat y) ->
  exists v, sg_lml_derivs_dense la m n nf 1 1 k sigma xl jl x y jac mf = Some v /\
  INR n * v = ln (mvn_pdf n (noisy sigma M) (fun i => y i O - mf n 1%nat y) b).
Proof. exact sg_lml_derivs_mvn. Qed.
Print Assumptions C47_likelihood_derivs.
Theorem C47_likelihood_derivs_refuted : forall la m n nf k sigma xl jl x y jac mf,
  sg_lml_derivs_dense la m n nf 2 2 k sigma xl jl x y jac mf = None.
Proof. reflexivity. Qed.
Print Assumptions C47_likelihood_derivs_refuted.
Theorem C47_rpchol_likelihood_derivs : forall la, linalg_ok la -> forall choose n nf nl k,
  all_atoms (fun _ a => psd_atom a) k -> (forall i p, (choose i p < n)%nat) -> wf nf k -> ls_nonzero k -> dgram_ok k ->
  forall sigma x y jac mf, exists p : nat -> nat, (forall l, (l < nl)%nat -> (p l < n)%nat /\
    snd (fst (rp_fit_derivs_dense la choose n nf 1 nl k sigma x y jac mf)) l = x (p l) /\ snd (rp_fit_derivs_dense la choose n nf 1 nl k sigma x y jac mf) l = jac (p l)) /\
  let xl := fun l => x (p l) in
  let jl := fun l => jac (p l) in
  forall M b, (0 < n)%nat -> nystrom nl n (d01kj nl nl nf 1 1 k xl xl jl jl) (d01kj nl n nf 1 1 k xl x jl jac) M ->
  veq n (mv n (noisy sigma M) b) (fun i => y i O - mf n 1%nat y) ->
  exists v, rp_lml_derivs_dense la choose n nf 1 nl k sigma x y jac mf = Some v /\
  INR n * v = ln (mvn_pdf n (noisy sigma M) (fun i => y i O - mf n 1%nat y) b).
Proof. exact rp_lml_derivs_ok. Qed.
Print Assumptions C47_rpchol_likelihood_derivs.
Example C47_example : all_atoms (fun _ a => psd_atom a) gp_kernel /\ wf 3 gp_kernel /\ ls_nonzero gp_kernel
  /\ exact gp_kernel /\ dgram_ok gp_kernel.
Proof. exact gp_kernel_ok. Qed.
Example C47_example_nystrom :
  nystrom 1 2 (fun _ _ => 1 - / 10 ^ 10) (fun _ j => INR (S j)) (fun i j => INR (S i) * INR (S j)).
Proof. exact ex_nystrom. Qed.
Example C47_example_choose : forall i (p : Vec), ((fun (i : nat) (_ : Vec) => (i mod 3)%nat) i p < 3)%nat.
Proof. exact ex_choose. Qed.

(** ** C48 *)
Theorem C48_operators : forall m n nf k sigma x1 x2 z i j, (i < m)%nat ->
  fst (sg_Ax_lhs_fun m n nf k sigma x1 x2) z i j = mm m (fst (sg_A_lhs n nf k sigma x1 x2)) z i j /\
  snd (sg_Ax_lhs_fun m n nf k sigma x1 x2) z i j = mm n (snd (sg_A_lhs n nf k sigma x1 x2)) z i j.
Proof. exact sg_operators. Qed.
Print Assumptions C48_operators.
Theorem C48_fit : forall la, linalg_ok la -> forall m n o nf k sigma xl x y mf, all_atoms (fun _ a => psd_atom a) k ->
  meq m o (fst (sg_fit_iter la m n o nf k sigma xl x y mf)) (fst (sg_fit_dense la m n o nf k sigma xl x y mf)) /\
  snd (sg_fit_iter la m n o nf k sigma xl x y mf) = snd (sg_fit_dense la m n o nf k sigma xl x y mf).
Proof. exact sg_fit_iter_eq. Qed.
Print Assumptions C48_fit.
Theorem C48_predict : forall m n nf k sigma xl x c mu t j, (t < n)%nat ->
  sg_predict_iter m n nf k sigma xl x c mu t j = sg_predict_dense m nf k xl x c mu t j.
Proof. exact sg_predict_iter_eq. Qed.
Print Assumptions C48_predict.
Theorem C48_predict_derivs : forall m n nf nv nd k sigma xl jl x jac c mu t u, wf nf k -> (t < n)%nat -> (u < nd)%nat ->
  sg_predict_derivs_iter m n nf nv nd k sigma xl jl x jac c mu t u
  = sg_predict_derivs_dense m n nf nv nd k xl jl x jac c mu t u.
Proof. exact sg_predict_derivs_iter_eq. Qed.
Print Assumptions C48_predict_derivs.
Theorem C48_predict_y_derivs : forall m n nf nv k xl jl x c mu t j, wf nf k -> (t < n)%nat ->
  sg_predict_y_derivs_iter m n nf nv k xl jl x c mu t j = sg_predict_y_derivs_dense m n nf nv k xl jl x c mu t j.
Proof. exact sg_predict_y_derivs_iter_eq. Qed.
Print Assumptions C48_predict_y_derivs.
(** predictions through the contracted jacobian stored by fit_derivs *)
Theorem C48_jaccoef : forall m n nf nv nd k xl jl x jac c mu t u,
  wf nf k -> ls_nonzero k -> no_m52 k -> regular nf k m n xl x -> (t < n)%nat -> (u < nd)%nat ->
  sg_predict_derivs_jaccoef m n nf nd k xl x jac mu (jaccoef_of nv c jl) t u
  = sg_predict_derivs_dense m n nf nv nd k xl jl x jac c mu t u.
Proof. exact sg_jaccoef_eq. Qed.
Print Assumptions C48_jaccoef.
Theorem C48_jaccoef_values : forall m n nf nv k xl jl x c mu t j,
  wf nf k -> ls_nonzero k -> no_m52 k -> (t < n)%nat -> j = O ->
  sg_predict_y_derivs_jaccoef m n nf k xl x mu (jaccoef_of nv c jl) t j
  = sg_predict_y_derivs_dense m n nf nv k xl jl x c mu t j.
Proof. exact sg_jaccoef_values_eq. Qed.
Print Assumptions C48_jaccoef_values.
(** any kernel, Matern52 included (the error is zero without it) *)
Theorem C48_jaccoef_close : forall m n nf nv nd k xl jl x jac c mu t u,
  wf nf k -> ls_nonzero k -> regular nf k m n xl x -> (t < n)%nat -> (u < nd)%nat ->
  Rabs (sg_predict_derivs_jaccoef m n nf nd k xl x jac mu (jaccoef_of nv c jl) t u
        - sg_predict_derivs_dense m n nf nv nd k xl jl x jac c mu t u)
  <= sum m (fun s => cerr01 nf k (xl s) (x t) (jaccoef_of nv c jl s) (fun e => jac t e u)).
Proof. exact sg_jaccoef_close. Qed.
Print Assumptions C48_jaccoef_close.
Theorem C48_jaccoef_values_close : forall m n nf nv k xl jl x c mu t j,
  wf nf k -> ls_nonzero k -> (t < n)%nat -> j = O ->
  Rabs (sg_predict_y_derivs_jaccoef m n nf k xl x mu (jaccoef_of nv c jl) t j
        - sg_predict_y_derivs_dense m n nf nv k xl jl x c mu t j)
  <= sum m (fun s => cerr0 nf k (xl s) (x t) (jaccoef_of nv c jl s)).
Proof. exact sg_jaccoef_values_close. Qed.
Print Assumptions C48_jaccoef_values_close.
(** the likelihood, given the exact log-determinant *)
Theorem C48_likelihood : forall la, linalg_ok la -> forall m n nf k sigma xl x y mf M, (0 < n)%nat ->
  all_atoms (fun _ a => psd_atom a) k -> nystrom m n (kk nf k xl xl) (kk nf k xl x) M ->
  sg_lml_iter la m n 1 nf k sigma xl x y mf (ln (det n (noisy sigma M))) = sg_lml_dense la m n 1 nf k sigma xl x y mf.
Proof. exact sg_lml_iter_eq. Qed.
Print Assumptions C48_likelihood.
(** the operator whose log-determinant is estimated *)
Theorem C48_likelihood_operator : forall la, linalg_ok la -> forall m n nf k sigma xl x, all_atoms (fun _ a => psd_atom a) k ->
  exists M, nystrom m n (kk nf k xl xl) (kk nf k xl x) M /\
  forall z i j, (i < n)%nat -> sg_Hx_fun la m n nf k sigma xl x z i j = mm n (noisy sigma M) z i j.
Proof. exact sg_Hx_nystrom. Qed.
Print Assumptions C48_likelihood_operator.
(** derivatives: column c of K_mn K_mn^T is taken at (c mod m) nv + c / m *)
Theorem C48_derivs_operator : forall m n nf nv nd k sigma x1 J1 x2 J2 z i j,
  wf nf k -> ls_nonzero k -> regular nf k m n x1 x2 -> (i < m * nv)%nat ->
  fst (sg_Ax_derivs_lhs_fun m n nf nv nd k sigma x1 J1 x2 J2) z i j
  = sum (m * nv) (fun c => (sigma ^ 2 * d01kj m m nf nv nv k x1 x1 J1 J1 i c
       + mm (n * nd) (d01kj m n nf nv nd k x1 x2 J1 J2) (tr (d01kj m n nf nv nd k x1 x2 J1 J2)) i ((c mod m) * nv + c / m)%nat
       + / 10 ^ 10 * delta i c) * z c j).
Proof. exact sg_Axd_lhs. Qed.
Print Assumptions C48_derivs_operator.
Theorem C48_fit_derivs_one : forall la, linalg_ok la -> forall m n nf nv nd k sigma xl jl x y jac mf,
  all_atoms (fun _ a => psd_atom a) k -> wf nf k -> ls_nonzero k -> dgram_ok k -> m = 1%nat \/ nv = 1%nat ->
  meq (m * nv) 1 (fst (sg_fit_derivs_iter la m n nf nv nd k sigma xl jl x y jac mf))
    (fst (sg_fit_derivs_dense la m n nf nv nd k sigma xl jl x y jac mf)).
Proof. exact sg_fit_derivs_iter_eq. Qed.
Print Assumptions C48_fit_derivs_one.
Theorem C48_derivs_operator_refuted :
  ~ (forall m n nf nv nd k sigma x1 J1 x2 J2 z i j, wf nf k -> ls_nonzero k -> dgram_ok k -> (i < m * nv)%nat ->
     fst (sg_Ax_derivs_lhs_fun m n nf nv nd k sigma x1 J1 x2 J2) z i j
     = mm (m * nv) (fst (sg_A_derivs_lhs m n nf nv nd k sigma x1 J1 x2 J2)) z i j).
Proof. exact derivs_op_refuted. Qed.
Print Assumptions C48_derivs_operator_refuted.
(** the same permutation in the likelihood of derivatives *)
Theorem C48_likelihood_derivs_operator : forall la, linalg_ok la -> forall m n nf nd k sigma x1 J1 x2 J2,
  all_atoms (fun _ a => psd_atom a) k -> wf nf k -> ls_nonzero k -> dgram_ok k ->
  exists M, nystrom (m * nd) (n * nd) (d01kj m m nf nd nd k x1 x1 J1 J1) (d01kj m n nf nd nd k x1 x2 J1 J2) M /\
  forall z i j, (i < n * nd)%nat -> sg_Hx_derivs_fun la m n nf nd k sigma x1 J1 x2 J2 z i j
    = sum (n * nd) (fun c => (M i ((c mod n) * nd + c / n)%nat + (sigma ^ 2 + / 10 ^ 10) * delta i c) * z c j).
Proof. exact sg_Hxd_nystrom. Qed.
Print Assumptions C48_likelihood_derivs_operator.
(** one sample or one derivative per sample: with the exact log-determinant it is the log density *)
Theorem C48_likelihood_derivs_one : forall la, linalg_ok la -> forall nf k,
  all_atoms (fun _ a => psd_atom a) k -> wf nf k -> ls_nonzero k -> dgram_ok k ->
  forall m n nd sigma xl jl x y jac mf M b, (0 < n * nd)%nat -> n = 1%nat \/ nd = 1%nat ->
  nystrom (m * nd) (n * nd) (d01kj m m nf nd nd k xl xl jl jl) (d01kj m n nf nd nd k xl x jl jac) M ->
  veq (n * nd) (mv (n * nd) (noisy sigma M) b) (fun i => flat nd y i O - mf (n * nd)%nat 1%nat (flat nd y)) ->
  INR (n * nd) * sg_lml_derivs_iter la m n nf nd k sigma xl jl x y jac mf (ln (det (n * nd) (noisy sigma M)))
  = ln (mvn_pdf (n * nd) (noisy sigma M) (fun i => flat nd y i O - mf (n * nd)%nat 1%nat (flat nd y)) b).
Proof. exact sg_lml_derivs_iter_mvn. Qed.
Print Assumptions C48_likelihood_derivs_one.
Theorem C48_rpchol_likelihood_derivs_one : forall la, linalg_ok la -> forall choose n nf nl k,
  all_atoms (fun _ a => psd_atom a) k -> (forall i p, (choose i p < n)%nat) -> wf nf k -> ls_nonzero k -> dgram_ok k ->
  forall nd sigma x y jac mf, exists p : nat -> nat, (forall l, (l < nl)%nat -> (p l < n)%nat /\
    snd (fst (rp_fit_derivs_dense la choose n nf nd nl k sigma x y jac mf)) l = x (p l) /\ snd (rp_fit_derivs_dense la choose n nf nd nl k sigma x y jac mf) l = jac (p l)) /\
  let xl := fun l => x (p l) in
  let jl := fun l => jac (p l) in
  forall M b, (0 < n * nd)%nat -> n = 1%nat \/ nd = 1%nat ->
  nystrom (nl * nd) (n * nd) (d01kj nl nl nf nd nd k xl xl jl jl) (d01kj nl n nf nd nd k xl x jl jac) M ->
  veq (n * nd) (mv (n * nd) (noisy sigma M) b) (fun i => flat nd y i O - mf (n * nd)%nat 1%nat (flat nd y)) ->
  INR (n * nd) * rp_lml_derivs_iter la choose n nf nd nl k sigma x y jac mf (ln (det (n * nd) (noisy sigma M)))
  = ln (mvn_pdf (n * nd) (noisy sigma M) (fun i => flat nd y i O - mf (n * nd)%nat 1%nat (flat nd y)) b).
Proof. exact rp_lml_derivs_iter_ok. Qed.
Print Assumptions C48_rpchol_likelihood_derivs_one.
Example C48_example : regular 1 lin 2 3 (fun i _ => INR i) (fun i _ => INR i).
Proof. exact (lin_regular 1 2 3 _ _). Qed.

(** ** C57; b1, b2 stand for (K_mm + 1e-10)^-1 K_mn and (sigma^2 K_mm + K_mn K_nm + 1e-10)^-1 K_mn, where n
    counts the points at which to predict *)
Theorem C57_formula : forall la, linalg_ok la -> forall nf k, all_atoms (fun _ a => psd_atom a) k -> forall sigma m n xl x B1 B2,
  meq m n (mm m (fun i j => kk nf k xl xl i j + / 10 ^ 10 * delta i j) B1) (kk nf k xl x) ->
  meq m n (mm m (fun i j => sigma ^ 2 * kk nf k xl xl i j + mm n (kk nf k xl x) (kk nf k x xl) i j + / 10 ^ 10 * delta i j) B2)
    (kk nf k xl x) ->
  meq n n (sg_predict_cov la m n nf k sigma xl x)
    (fun i j => kk nf k x x i j - mm m (kk nf k x xl) B1 i j + sigma ^ 2 * mm m (kk nf k x xl) B2 i j).
Proof. exact sg_predict_cov_formula. Qed.
Print Assumptions C57_formula.
Theorem C57_order : forall la, linalg_ok la -> forall nf k, all_atoms (fun _ a => psd_atom a) k -> forall sigma m n xl x,
  sym n (sg_predict_cov la m n nf k sigma xl x) /\ psd n (sg_predict_cov la m n nf k sigma xl x) /\
  (sigma ^ 2 <= 1 -> psd n (fun i j => kk nf k x x i j - sg_predict_cov la m n nf k sigma xl x i j)).
Proof. exact sg_predict_cov_order. Qed.
Print Assumptions C57_order.
(** GPR: asking for other points does not change a covariance *)
Theorem C57_gpr_batch : forall la, linalg_ok la -> forall nf k sigma, all_atoms (fun _ a => psd_atom a) k ->
  forall m n q xt x (p : nat -> nat), (forall i, (i < q)%nat -> (p i < n)%nat) ->
  meq q q (predict_cov la m nf k sigma xt (fun i => x (p i))) (fun i j => predict_cov la m nf k sigma xt x (p i) (p j)).
Proof. exact gpr_batch. Qed.
Print Assumptions C57_gpr_batch.
(** SGPR: it does, *)
Theorem C57_sgpr_batch_refuted : forall la, linalg_ok la ->
  ~ (forall nf k sigma, all_atoms (fun _ a => psd_atom a) k -> forall m n n' xl x, (0 < n)%nat -> (n <= n')%nat ->
     sg_predict_cov la m n nf k sigma xl x O O = sg_predict_cov la m n' nf k sigma xl x O O).
Proof. exact sg_batch_refuted. Qed.
Print Assumptions C57_sgpr_batch_refuted.
(** and always downwards *)
Theorem C57_sgpr_batch_shrinks : forall la, linalg_ok la -> forall nf k, all_atoms (fun _ a => psd_atom a) k ->
  forall sigma m n p xl x,
  psd n (fun i j => sg_predict_cov la m n nf k sigma xl x i j - sg_predict_cov la m (n + p) nf k sigma xl x i j).
Proof. exact sg_predict_cov_batch. Qed.
Print Assumptions C57_sgpr_batch_shrinks.
(** one feature, linear kernel, sigma = 1, everything at 1: with p training points the variance of GPR decreases to
    the noise, that of SGPR is that of n predictions *)
Theorem C57_training_data : forall la, linalg_ok la ->
  (forall p, predict_cov la p 1 lin 1 ones ones O O = 1 - INR p / (INR p + 1 + / 10 ^ 10)) /\
  (forall n, (0 < n)%nat -> sg_predict_cov la 1 n 1 lin 1 ones ones O O = 1 - / (1 + / 10 ^ 10) + / (1 + INR n + / 10 ^ 10)).
Proof. exact ones_covs. Qed.
Print Assumptions C57_training_data.
Example C57_example : all_atoms (fun _ a => psd_atom a) lin /\ wf 1 lin /\ ls_nonzero lin /\ dgram_ok lin.
Proof. exact (lin_ok 1). Qed.
