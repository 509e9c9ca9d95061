(** C17, C38, C39, C40, C48 at the level of the public functions of GPR, SGPR and SGPR_RPChol: fitting and
    predicting, in every combination of the options iterative and full_covariance.
    Reference: Spec/PublicSpec.v, Spec/EquivSpec.v. *)
From Coq Require Import Reals Arith List Bool.
From Coquelicot Require Import Coquelicot.
From Verif Require Import Base.Sums Base.Mat Base.PSD Model.Arrays Model.Kernels Model.LinAlg Model.RPCholesky Model.GPR Model.SGPR
  Model.PyDict Model.Public Spec.KernelSpec Spec.GPSpec Spec.EquivSpec Spec.PublicSpec
  Proofs.LinAlgFacts Proofs.GPRExamples Proofs.PublicFacts Proofs.PublicExamples.
Open Scope R_scope.

(** ** C39: however the model was fitted and whatever options the prediction has, the mean is the same *)
Theorem C39_public : forall la, linalg_ok la -> forall choose nf k sigma mf, all_atoms (fun _ a => psd_atom a) k -> sigma <> 0 ->
  forall s m o x y it np n xs full iter, compatible full iter ->
  exists out, gpr_predict la nf k sigma (gpr_fit la choose nf k sigma mf s m o x y it np) n xs full iter = Ok out /\
  (forall t j, (t < n)%nat -> (j < o)%nat -> mean_of out t j = gpr la m o nf k sigma mf x y xs t j) /\
  (full = true -> exists M, out = MeanCov M (predict_cov la m nf k sigma x xs)).
Proof. exact pub_predict. Qed.
Print Assumptions C39_public.
Theorem C39_public_derivatives : forall la, linalg_ok la -> forall choose nf k sigma, all_atoms (fun _ a => psd_atom a) k -> sigma <> 0 ->
  wf nf k -> ls_nonzero k -> dgram_ok k ->
  forall m nv x y jac it np n nd xs jacs full iter, compatible full iter -> (default_mode full iter -> is_sum k = false /\ no_m52 k) ->
  exists out, gpr_predict_derivs la nf k sigma (gpr_fit_derivs la choose nf k sigma m nv x y jac it np) n nd xs jacs full iter = Ok out /\
  (forall t u, (t < n)%nat -> (u < nd)%nat ->
    derivative_at full nd (mean_of out) t u = gpr_derivs la m nf nv k sigma x jac y n nd xs jacs t u) /\
  (full = true -> exists M, out = MeanCov M (predict_derivs_cov la m n nf nv nd k sigma x jac xs jacs)).
Proof. exact pub_derivs. Qed.
Print Assumptions C39_public_derivatives.
Theorem C39_public_values : forall la, linalg_ok la -> forall choose nf k sigma, all_atoms (fun _ a => psd_atom a) k -> sigma <> 0 ->
  wf nf k -> ls_nonzero k -> dgram_ok k ->
  forall m nv x y jac it np n xs full iter, compatible full iter -> (default_mode full iter -> is_sum k = false /\ no_m52 k) ->
  exists out, gpr_predict_y_derivs la nf k sigma (gpr_fit_derivs la choose nf k sigma m nv x y jac it np) n xs full iter = Ok out /\
  (forall t, (t < n)%nat -> mean_of out t O = gpr_y_derivs la m nf nv k sigma x jac y n xs t O) /\
  (full = true -> exists M, out = MeanCov M (predict_y_derivs_cov la m n nf nv k sigma x jac xs)).
Proof. exact pub_y_derivs. Qed.
Print Assumptions C39_public_values.
Example C39_public_example : linalg_ok ref_la /\ (all_atoms (fun _ a => psd_atom a) pub_kernel /\ wf 3 pub_kernel /\ ls_nonzero pub_kernel
  /\ exact pub_kernel /\ dgram_ok pub_kernel /\ no_m52 pub_kernel /\ is_sum pub_kernel = false).
Proof. exact (conj ref_la_ok pub_kernel_ok). Qed.

(** ** C17: a GPR whose kernel is a sum, fitted to derivatives, cannot predict with the default options:
    _gpr.py names the argument jaccoef, which Sum.d0kjc and Sum.d01kjc do not have *)
Theorem C17_sum_kernel_refuted : forall la choose nf k1 k2 sigma m nv x y jac it np n nd xs jacs,
  let s := gpr_fit_derivs la choose nf (KSum k1 k2) sigma m nv x y jac it np in
  gpr_predict_derivs la nf (KSum k1 k2) sigma s n nd xs jacs false false = Err TypeError /\
  gpr_predict_y_derivs la nf (KSum k1 k2) sigma s n xs false false = Err TypeError.
Proof. exact pub_sum_fails. Qed.
Print Assumptions C17_sum_kernel_refuted.
(** those are the only failures besides the two options that exclude each other *)
Theorem C17_predict_derivs : forall la choose nf k sigma m nv x y jac it np n nd xs jacs full iter,
  let s := gpr_fit_derivs la choose nf k sigma m nv x y jac it np in
  ((exists out, gpr_predict_derivs la nf k sigma s n nd xs jacs full iter = Ok out) <->
   compatible full iter /\ (default_mode full iter -> is_sum k = false)) /\
  ((exists out, gpr_predict_y_derivs la nf k sigma s n xs full iter = Ok out) <->
   compatible full iter /\ (default_mode full iter -> is_sum k = false)) /\
  gpr_predict la nf k sigma s n xs full iter = Err RuntimeError.
Proof. exact pub_derivs_ok. Qed.
Print Assumptions C17_predict_derivs.
(** the sparse models pass it by position and never fail *)
Theorem C17_sparse_predict_derivs : forall la choose nf k sigma s n nd x y jac it n' nd' xs jacs iter n_locs,
  (let s := sgpr_fit_derivs la nf k sigma s n nd x y jac it in
   (exists out, sgpr_predict_derivs nf k sigma s n' nd' xs jacs iter = Ok out) /\ (exists out, sgpr_predict_y_derivs nf k s n' xs iter = Ok out)) /\
  (let s := rp_fit_derivs la choose nf k sigma n_locs n nd x y jac it in
   (exists out, sgpr_predict_derivs nf k sigma s n' nd' xs jacs iter = Ok out) /\ (exists out, sgpr_predict_y_derivs nf k s n' xs iter = Ok out)).
Proof. exact sg_pub_ok. Qed.
Print Assumptions C17_sparse_predict_derivs.

(** ** C38: what is left of the targets at the training points *)
Theorem C38_public : forall la, linalg_ok la -> forall choose nf k sigma mf, all_atoms (fun _ a => psd_atom a) k -> sigma <> 0 ->
  forall s m o x y it np full iter out,
  let st := gpr_fit la choose nf k sigma mf s m o x y it np in
  gpr_predict la nf k sigma st m x full iter = Ok out ->
  forall i j, (i < m)%nat -> (j < o)%nat -> y i j - mean_of out i j = (sigma ^ 2 + / 10 ^ 10) * g_c st i j.
Proof. exact pub_residual. Qed.
Print Assumptions C38_public.
Theorem C38_public_derivatives : forall la, linalg_ok la -> forall choose nf k sigma, all_atoms (fun _ a => psd_atom a) k -> sigma <> 0 ->
  wf nf k -> ls_nonzero k -> dgram_ok k -> forall m nv x y jac it np full iter out,
  let st := gpr_fit_derivs la choose nf k sigma m nv x y jac it np in (default_mode full iter -> no_m52 k) ->
  gpr_predict_derivs la nf k sigma st m nv x jac full iter = Ok out ->
  forall s v, (s < m)%nat -> (v < nv)%nat ->
  y s v - derivative_at full nv (mean_of out) s v = (sigma ^ 2 + / 10 ^ 10) * g_c st (s * nv + v)%nat O.
Proof. exact pub_residual_derivs. Qed.
Print Assumptions C38_public_derivatives.

(** ** C40, GPR and the sparse models; whatever mean function the model has *)
Theorem C40_public : forall la nf k sigma, wf nf k -> ls_nonzero k -> exact k ->
  forall choose m nv x y jac it np n nd (G : R -> Mat) jacs t u t0 full iter full' iter' out (V : R -> output),
  let s := gpr_fit_derivs la choose nf k sigma m nv x y jac it np in
  (t < n)%nat -> (u < nd)%nat -> (forall f, (f < nf)%nat -> is_derive (fun z => G z t f) t0 (jacs t f u)) ->
  (default_mode full iter \/ default_mode full' iter' -> no_m52 k) ->
  gpr_predict_derivs la nf k sigma s n nd (G t0) jacs full iter = Ok out ->
  (forall z, gpr_predict_y_derivs la nf k sigma s n (G z) full' iter' = Ok (V z)) ->
  is_derive (fun z => mean_of (V z) t O) t0 (derivative_at full nd (mean_of out) t u).
Proof. exact pub_curve. Qed.
Print Assumptions C40_public.
Theorem C40_sparse : forall nf k sigma, wf nf k -> ls_nonzero k -> exact k ->
  forall s n nd (G : R -> Mat) jacs t u t0 iter iter' out (V : R -> output),
  s_fitted s = false -> s_fitted_derivs s = true -> s_jaccoef s = jaccoef_of (s_nv s) (s_c s) (s_jac_locs s) ->
  (t < n)%nat -> (u < nd)%nat -> (forall f, (f < nf)%nat -> is_derive (fun z => G z t f) t0 (jacs t f u)) ->
  (iter = false \/ iter' = false -> no_m52 k) ->
  sgpr_predict_derivs nf k sigma s n nd (G t0) jacs iter = Ok out ->
  (forall z, sgpr_predict_y_derivs nf k s n (G z) iter' = Ok (V z)) ->
  is_derive (fun z => mean_of (V z) t O) t0 (mean_of out t u).
Proof. exact sg_pub_curve. Qed.
Print Assumptions C40_sparse.
(** the states left by the two fit_derivs *)
Example C40_sparse_example : forall la choose nf k sigma s n nd x y jac it n_locs,
  (let s := sgpr_fit_derivs la nf k sigma s n nd x y jac it in
   s_fitted s = false /\ s_fitted_derivs s = true /\ s_jaccoef s = jaccoef_of (s_nv s) (s_c s) (s_jac_locs s)) /\
  (let s := rp_fit_derivs la choose nf k sigma n_locs n nd x y jac it in
   s_fitted s = false /\ s_fitted_derivs s = true /\ s_jaccoef s = jaccoef_of (s_nv s) (s_c s) (s_jac_locs s)).
Proof. intros. repeat split. Qed.
Example C40_public_example : forall choose x y jac xs jacs, exists out vout,
  gpr_predict_derivs ref_la 3 pub_kernel 1 (gpr_fit_derivs ref_la choose 3 pub_kernel 1 4 2 x y jac true 2) 5 2 xs jacs false false = Ok out /\
  gpr_predict_y_derivs ref_la 3 pub_kernel 1 (gpr_fit_derivs ref_la choose 3 pub_kernel 1 4 2 x y jac true 2) 5 xs false false = Ok vout.
Proof. exact ex_pub. Qed.

(** ** C48 *)
Theorem C48_public : forall la, linalg_ok la -> forall nf k sigma mf, all_atoms (fun _ a => psd_atom a) k ->
  forall s n o x y it n' xs full iter, compatible full iter ->
  exists out, sgpr_predict la nf k sigma (sgpr_fit la nf k sigma mf s n o x y it) n' xs full iter = Ok out /\
  forall t j, (t < n')%nat -> (j < o)%nat -> mean_of out t j = sgpr la (s_m s) n o nf k sigma mf (s_locs s) x y xs t j.
Proof. exact sg_pub_predict. Qed.
Print Assumptions C48_public.
Theorem C48_public_rpchol : forall la, linalg_ok la -> forall choose nf k sigma mf, all_atoms (fun _ a => psd_atom a) k ->
  forall s nl n o x y it n' xs full iter, compatible full iter ->
  exists out, sgpr_predict la nf k sigma (rp_fit la choose nf k sigma mf s nl n o x y it) n' xs full iter = Ok out /\
  forall t j, (t < n')%nat -> (j < o)%nat ->
  mean_of out t j = sgpr la nl n o nf k sigma mf (fun l => x (snd (rpcholesky choose n nf x nl k) l)) x y xs t j.
Proof. exact rp_pub_predict. Qed.
Print Assumptions C48_public_rpchol.
Theorem C48_public_derivatives : forall nf k sigma, wf nf k -> ls_nonzero k -> exact k -> no_m52 k ->
  forall s n nd xs jacs iter iter' out out' vout vout',
  s_jaccoef s = jaccoef_of (s_nv s) (s_c s) (s_jac_locs s) ->
  sgpr_predict_derivs nf k sigma s n nd xs jacs iter = Ok out -> sgpr_predict_derivs nf k sigma s n nd xs jacs iter' = Ok out' ->
  sgpr_predict_y_derivs nf k s n xs iter = Ok vout -> sgpr_predict_y_derivs nf k s n xs iter' = Ok vout' ->
  forall t, (t < n)%nat -> (forall u, (u < nd)%nat -> mean_of out t u = mean_of out' t u) /\ mean_of vout t O = mean_of vout' t O.
Proof. exact sg_pub_modes. Qed.
Print Assumptions C48_public_derivatives.
(** fitted to derivatives, predicted in either mode *)
Theorem C48_public_fit_derivatives : forall la, forall nf k sigma, linalg_ok la -> all_atoms (fun _ a => psd_atom a) k ->
  wf nf k -> ls_nonzero k -> dgram_ok k ->
  forall s n nd x y jac it n' nd' xs jacs iter, (it = true -> s_m s = 1%nat \/ s_nv s = 1%nat) -> (iter = false -> no_m52 k) ->
  exists out, sgpr_predict_derivs nf k sigma (sgpr_fit_derivs la nf k sigma s n nd x y jac it) n' nd' xs jacs iter = Ok out /\
  forall t u, (t < n')%nat -> (u < nd')%nat ->
  mean_of out t u = sgpr_derivs la (s_m s) n nf (s_nv s) nd k sigma (s_locs s) (s_jac_locs s) x jac y n' nd' xs jacs t u.
Proof. exact sg_pub_fit_derivs. Qed.
Print Assumptions C48_public_fit_derivatives.
Theorem C48_public_fit_derivatives_values : forall la, forall nf k sigma, linalg_ok la -> all_atoms (fun _ a => psd_atom a) k ->
  wf nf k -> ls_nonzero k -> dgram_ok k ->
  forall s n nd x y jac it n' xs iter, (it = true -> s_m s = 1%nat \/ s_nv s = 1%nat) -> (iter = false -> no_m52 k) ->
  exists out, sgpr_predict_y_derivs nf k (sgpr_fit_derivs la nf k sigma s n nd x y jac it) n' xs iter = Ok out /\
  forall t, (t < n')%nat ->
  mean_of out t O = sgpr_y_derivs la (s_m s) n nf (s_nv s) nd k sigma (s_locs s) (s_jac_locs s) x jac y n' xs t O.
Proof. exact sg_pub_fit_y_derivs. Qed.
Print Assumptions C48_public_fit_derivatives_values.
Theorem C48_public_rpchol_derivatives : forall la, forall nf k sigma, linalg_ok la -> all_atoms (fun _ a => psd_atom a) k ->
  wf nf k -> ls_nonzero k -> dgram_ok k ->
  forall choose nl n nd x y jac it n' nd' xs jacs iter, (it = true -> nl = 1%nat \/ nd = 1%nat) -> (iter = false -> no_m52 k) ->
  let p := snd (rpcholesky choose n nf x nl k) in
  let st := rp_fit_derivs la choose nf k sigma nl n nd x y jac it in
  (exists out, sgpr_predict_derivs nf k sigma st n' nd' xs jacs iter = Ok out /\
   forall t u, (t < n')%nat -> (u < nd')%nat ->
   mean_of out t u = sgpr_derivs la nl n nf nd nd k sigma (fun l => x (p l)) (fun l => jac (p l)) x jac y n' nd' xs jacs t u) /\
  (exists out, sgpr_predict_y_derivs nf k st n' xs iter = Ok out /\
   forall t, (t < n')%nat -> mean_of out t O = sgpr_y_derivs la nl n nf nd nd k sigma (fun l => x (p l)) (fun l => jac (p l)) x jac y n' xs t O).
Proof. exact rp_pub_fit_derivs. Qed.
Print Assumptions C48_public_rpchol_derivatives.
Example C48_public_derivatives_example : linalg_ok ref_la /\ all_atoms (fun _ a => psd_atom a) pub_kernel /\ wf 3 pub_kernel /\ ls_nonzero pub_kernel
  /\ exact pub_kernel /\ dgram_ok pub_kernel /\ no_m52 pub_kernel /\ is_sum pub_kernel = false.
Proof. exact (conj ref_la_ok pub_kernel_ok). Qed.
