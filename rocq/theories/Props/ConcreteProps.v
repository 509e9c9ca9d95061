(** Property C67: from the construction of a model, over its whole history, to the numbers it predicts.
    The numerics of the classes are those of Model/Concrete.v: parameters are read from the dictionary of the state,
    arrays from what the fit has left in it. *)
From Coq Require Import String List Reals Arith Bool ZArith.
From Verif Require Import Base.Sums Base.Mat Model.Arrays Model.Kernels Model.LinAlg Model.RPCholesky Model.GPR Model.SGPR Model.PyDict Model.Bijectors Model.Params Model.State
  Model.Optim Model.Calls Model.Lifecycle Model.KernelObj Model.Public Model.Concrete
  Spec.KernelSpec Spec.GPSpec Spec.StateSpec Spec.RandomSpec Spec.OptimSpec Spec.LifecycleSpec Spec.KernelObjSpec Spec.EquivSpec Spec.PublicSpec Spec.ConcreteSpec
  Proofs.LinAlgFacts Proofs.StateExamples Proofs.DispatchFacts Proofs.ConcretePropLemmas Proofs.ConcreteExamples Proofs.Construction Proofs.ConcreteSparse Proofs.ConcreteSparseExamples.
Import ListNotations.
Open Scope string_scope.
Open Scope R_scope.

(** ** construction: valid parameters are accepted, and the state holds these and no others *)
(** GPR *)
Theorem C67_construction : forall kernel mean kp sigma l, obj_ok kernel -> obj_ok mean -> ptree_ok kp -> param_ok sigma ->
  exists s0, gpr_init kernel mean kp sigma (OCall l) = Ok s0 /\ s_kernel s0 = kernel /\ s_mean s0 = mean /\ state_ok s0 /\
  same_leaves (s_params s0) (Node [("kernel_params", kp); ("sigma", Leaf (Some sigma))]).
Proof. exact gpr_built. Qed.
Print Assumptions C67_construction.
(** SGPR *)
Theorem C67_sgpr_construction : forall kernel mean x_locs jacobian_locs kp sigma l, obj_ok kernel -> obj_ok mean -> ptree_ok kp -> param_ok sigma -> param_ok x_locs ->
  opt_ok jacobian_locs ->
  exists s0, sgpr_init kernel mean x_locs jacobian_locs kp sigma (OCall l) = Ok s0 /\ s_kernel s0 = kernel /\ s_mean s0 = mean /\ state_ok s0 /\
  lookup ["sigma"] (s_params s0) = Some (Some sigma) /\ lookup ["x_locs"] (s_params s0) = Some (Some x_locs) /\
  lookup ["jacobian_locs"] (s_params s0) = option_map Some jacobian_locs /\
  forall path, lookup ("kernel_params" :: path) (s_params s0) = lookup path kp.
Proof. exact sgpr_built. Qed.
Print Assumptions C67_sgpr_construction.
(** SGPR_RPChol, which keeps the number of inducing points and the key *)
Theorem C67_rpchol_construction : forall kernel mean n_locs k kp sigma l, obj_ok kernel -> obj_ok mean -> ptree_ok kp -> param_ok sigma ->
  obj_ok n_locs -> ~ is_raw n_locs -> obj_ok k -> ~ is_raw k ->
  exists s0, rpchol_init kernel mean n_locs (Some k) kp sigma (OCall l) = Ok s0 /\ s_kernel s0 = kernel /\ s_mean s0 = mean /\ state_ok s0 /\
  get "n_locs" (s_register s0) = Some n_locs /\ get "key" (s_register s0) = Some k /\
  same_leaves (s_params s0) (Node [("kernel_params", kp); ("sigma", Leaf (Some sigma))]).
Proof. exact rpchol_built. Qed.
Print Assumptions C67_rpchol_construction.
Example C67_construction_case : forall l, ptree_ok (ex_kp l) /\ param_ok (scalar_param true 1) /\ gpr_init (OCall 1) (OCall 2) (ex_kp l) (scalar_param true 1) (OCall 7) = Ok (ex_s0 l) /\
  obj_ok (OCall 3) /\ ~ is_raw (OCall 3).
Proof. exact construction_case. Qed.

(** ** the parameters: at the end of every history the state holds a valid kernel and a positive noise *)
Theorem C67_parameters : forall la choose kernels means rest, plain_numerics rest ->
  forall lossfn sample key_precond interned kernel mean ko s0 os es s fs, model_ok interned ko s0 -> calls_ok sample s0 os ->
  forall kp sigma l, gpr_init kernel mean kp sigma (OCall l) = Ok s0 ->
  Lifecycle.run lossfn sample key_precond interned (GPR (gpr_numerics la choose kernels means rest)) os (s0, fun _ => None) = (es, (s, fs)) ->
  exists k sg, holds ko s k sg /\ all_atoms (fun _ a => psd_atom a) k /\ ls_nonzero k /\ 0 < sg.
Proof. exact g_holds. Qed.
Print Assumptions C67_parameters.

(** ** GPR fitted to targets *)
Theorem C67_gpr : forall la, linalg_ok la -> forall choose kernels means rest, plain_numerics rest ->
  forall lossfn sample key_precond interned kernel mean ko s0 os es s fs,
  kernels kernel = Some ko -> model_ok interned ko s0 -> calls_ok sample s0 os ->
  forall kp sigma l, gpr_init kernel mean kp sigma (OCall l) = Ok s0 ->
  Lifecycle.run lossfn sample key_precond interned (GPR (gpr_numerics la choose kernels means rest)) os (s0, fun _ => None) = (es, (s, fs)) ->
  forall k sg mf p x y o m nf oo, holds ko s k sg -> means mean = Some mf ->
  v_fresh (observe es) = true -> v_mode (observe es) = Fitted (Trained p (Targets x y) o) ->
  shaped [m; nf] x -> shaped [m; oo] y -> pivots_ok m o ->
  forall q n, shaped [n; nf] (q_x q) -> compatible (q_full q) (q_iterative q) ->
  answers (base_predict (GPR (gpr_numerics la choose kernels means rest)) s q) (q_full q)
    n oo (gpr la m oo nf k sg mf (entry x) (entry y) (entry (q_x q)))
    n (predict_cov la m nf k sg (entry x) (entry (q_x q))).
Proof. exact gpr_predicts. Qed.
Print Assumptions C67_gpr.
(** the predicted mean, written out with the kernel function: mu + sum_t k(x*, x_t) c_t, where c solves the normal equations *)
Theorem C67_formula : forall la, linalg_ok la -> forall choose kernels means rest, plain_numerics rest ->
  forall lossfn sample key_precond interned kernel mean ko s0 os es s fs,
  kernels kernel = Some ko -> model_ok interned ko s0 -> calls_ok sample s0 os ->
  forall kp sigma l, gpr_init kernel mean kp sigma (OCall l) = Ok s0 ->
  Lifecycle.run lossfn sample key_precond interned (GPR (gpr_numerics la choose kernels means rest)) os (s0, fun _ => None) = (es, (s, fs)) ->
  forall k sg mf p x y o m nf oo, holds ko s k sg -> means mean = Some mf ->
  v_fresh (observe es) = true -> v_mode (observe es) = Fitted (Trained p (Targets x y) o) ->
  shaped [m; nf] x -> shaped [m; oo] y -> pivots_ok m o ->
  let mu := mf m oo (entry y) in
  exists c : Mat, (forall i j, (i < m)%nat -> (j < oo)%nat ->
    entry y i j - (mu + sum m (fun t => kernel_at nf k (entry x i) (entry x t) * c t j)) = (sg ^ 2 + / 10 ^ 10) * c i j) /\
  forall q n, shaped [n; nf] (q_x q) -> compatible (q_full q) (q_iterative q) ->
  exists a more, base_predict (GPR (gpr_numerics la choose kernels means rest)) s q = Ok (a :: more) /\ shaped [n; oo] a /\
  forall i j, (i < n)%nat -> (j < oo)%nat -> entry a i j = mu + sum m (fun t => kernel_at nf k (entry (q_x q) i) (entry x t) * c t j).
Proof. exact gpr_formula. Qed.
Print Assumptions C67_formula.
(** saved, and loaded by a model built alike from other values and with another history *)
Theorem C67_loaded : forall la, linalg_ok la -> forall choose kernels means rest, plain_numerics rest ->
  forall lossfn sample key_precond interned kernel mean ko s0 os es s fs,
  kernels kernel = Some ko -> model_ok interned ko s0 -> calls_ok sample s0 os ->
  forall kp sigma l, gpr_init kernel mean kp sigma (OCall l) = Ok s0 ->
  Lifecycle.run lossfn sample key_precond interned (GPR (gpr_numerics la choose kernels means rest)) os (s0, fun _ => None) = (es, (s, fs)) ->
  forall k sg mf p x y o m nf oo, holds ko s k sg -> means mean = Some mf ->
  v_fresh (observe es) = true -> v_mode (observe es) = Fitted (Trained p (Targets x y) o) ->
  shaped [m; nf] x -> shaped [m; oo] y -> pivots_ok m o ->
  forall kp' sigma' s1 os' es' t fs0 f, state_ok s1 -> tree_def (s_params s1) = tree_def (s_params s0) ->
  gpr_init kernel mean kp' sigma' (OCall l) = Ok s1 -> Forall (call_ok (s_params s0)) os' ->
  Lifecycle.run lossfn sample key_precond interned (GPR (gpr_numerics la choose kernels means rest)) os' (s1, fun _ => None) = (es', (t, fs0)) ->
  exists d fs' u, save s f fs = (Ok d, fs') /\ load interned t (npz_name f) fs' = Ok u /\
  forall q n, shaped [n; nf] (q_x q) -> compatible (q_full q) (q_iterative q) ->
  answers (base_predict (GPR (gpr_numerics la choose kernels means rest)) u q) (q_full q)
    n oo (gpr la m oo nf k sg mf (entry x) (entry y) (entry (q_x q)))
    n (predict_cov la m nf k sg (entry x) (entry (q_x q))).
Proof. exact gpr_loaded. Qed.
Print Assumptions C67_loaded.

(** ** GPR fitted to derivatives: predicted derivatives and values *)
Theorem C67_derivatives : forall la, linalg_ok la -> forall choose kernels means rest, plain_numerics rest ->
  forall lossfn sample key_precond interned kernel mean ko s0 os es s fs,
  kernels kernel = Some ko -> model_ok interned ko s0 -> calls_ok sample s0 os ->
  forall kp sigma l, gpr_init kernel mean kp sigma (OCall l) = Ok s0 ->
  Lifecycle.run lossfn sample key_precond interned (GPR (gpr_numerics la choose kernels means rest)) os (s0, fun _ => None) = (es, (s, fs)) ->
  forall k sg p x y j o m nf nv, holds ko s k sg -> wf nf k -> dgram_ok k ->
  v_fresh (observe es) = true -> v_mode (observe es) = Fitted (Trained p (Derivs x y j) o) ->
  shaped [m; nf] x -> shaped [m; nv] y -> shaped [m; nf; nv] j -> pivots_ok (m * nv) o ->
  forall q n jq nd, shaped [n; nf] (q_x q) -> q_jacobian q = Some jq -> shaped [n; nf; nd] jq ->
  compatible (q_full q) (q_iterative q) -> (default_mode (q_full q) (q_iterative q) -> is_sum k = false /\ no_m52 k) ->
  let D := gpr_derivs la m nf nv k sg (entry x) (entry3 j) (entry y) n nd (entry (q_x q)) (entry3 jq) in
  let V := predict_derivs_cov la m n nf nv nd k sg (entry x) (entry3 j) (entry (q_x q)) (entry3 jq) in
  let r := base_predict_derivs (GPR (gpr_numerics la choose kernels means rest)) s q in
  if q_full q then answers r true (n * nd) 1 (fun a _ => D (a / nd)%nat (a mod nd)%nat) (n * nd) V
  else answers r false n nd D (n * nd) V.
Proof. exact gpr_predicts_derivs. Qed.
Print Assumptions C67_derivatives.
Theorem C67_values_from_derivatives : forall la, linalg_ok la -> forall choose kernels means rest, plain_numerics rest ->
  forall lossfn sample key_precond interned kernel mean ko s0 os es s fs,
  kernels kernel = Some ko -> model_ok interned ko s0 -> calls_ok sample s0 os ->
  forall kp sigma l, gpr_init kernel mean kp sigma (OCall l) = Ok s0 ->
  Lifecycle.run lossfn sample key_precond interned (GPR (gpr_numerics la choose kernels means rest)) os (s0, fun _ => None) = (es, (s, fs)) ->
  forall k sg p x y j o m nf nv, holds ko s k sg -> wf nf k -> dgram_ok k ->
  v_fresh (observe es) = true -> v_mode (observe es) = Fitted (Trained p (Derivs x y j) o) ->
  shaped [m; nf] x -> shaped [m; nv] y -> shaped [m; nf; nv] j -> pivots_ok (m * nv) o ->
  forall q n, shaped [n; nf] (q_x q) ->
  compatible (q_full q) (q_iterative q) -> (default_mode (q_full q) (q_iterative q) -> is_sum k = false /\ no_m52 k) ->
  answers (base_predict_y_derivs (GPR (gpr_numerics la choose kernels means rest)) s q) (q_full q)
    n 1 (gpr_y_derivs la m nf nv k sg (entry x) (entry3 j) (entry y) n (entry (q_x q)))
    n (predict_y_derivs_cov la m n nf nv k sg (entry x) (entry3 j) (entry (q_x q))).
Proof. exact gpr_predicts_y. Qed.
Print Assumptions C67_values_from_derivatives.

(** ** sparse models *)
Theorem C67_sgpr_parameters : forall la kernels means rest, plain_numerics rest ->
  forall lossfn sample key_precond interned kernel mean ko s0 os es s fs, model_ok interned ko s0 -> calls_ok sample s0 os ->
  forall x_locs jacobian_locs kp sigma l, sgpr_init kernel mean x_locs jacobian_locs kp sigma (OCall l) = Ok s0 ->
  Lifecycle.run lossfn sample key_precond interned (SGPR (sgpr_numerics la kernels means rest)) os (s0, fun _ => None) = (es, (s, fs)) ->
  exists k sg, holds ko s k sg /\ all_atoms (fun _ a => psd_atom a) k /\ ls_nonzero k /\ 0 < sg.
Proof. exact sg_holds. Qed.
Print Assumptions C67_sgpr_parameters.
(** the inducing points are the current parameter *)
Theorem C67_sgpr : forall la, linalg_ok la -> forall kernels means rest, plain_numerics rest ->
  forall lossfn sample key_precond interned kernel mean ko s0 os es s fs,
  kernels kernel = Some ko -> model_ok interned ko s0 -> calls_ok sample s0 os ->
  forall x_locs jacobian_locs kp sigma l, sgpr_init kernel mean x_locs jacobian_locs kp sigma (OCall l) = Ok s0 ->
  Lifecycle.run lossfn sample key_precond interned (SGPR (sgpr_numerics la kernels means rest)) os (s0, fun _ => None) = (es, (s, fs)) ->
  forall k sg mf p x y o m nf oo nl xl, holds ko s k sg -> means mean = Some mf ->
  v_fresh (observe es) = true -> v_mode (observe es) = Fitted (Trained p (Targets x y) o) ->
  shaped [m; nf] x -> shaped [m; oo] y -> lookup ["x_locs"] (s_params s) = Some (Some xl) -> shaped [nl; nf] (p_value xl) ->
  forall q n, shaped [n; nf] (q_x q) -> compatible (q_full q) (q_iterative q) ->
  answers (base_predict (SGPR (sgpr_numerics la kernels means rest)) s q) (q_full q)
    n oo (sgpr la nl m oo nf k sg mf (entry (p_value xl)) (entry x) (entry y) (entry (q_x q)))
    n (sg_predict_cov la nl n nf k sg (entry (p_value xl)) (entry (q_x q))).
Proof. exact sgpr_predicts. Qed.
Print Assumptions C67_sgpr.
(** the inducing points are rows of x, picked by the RPCholesky of its Gram matrix with the key of the model *)
Theorem C67_rpchol : forall la, linalg_ok la -> forall kernels means rest keyed, plain_numerics rest ->
  forall lossfn sample key_precond interned kernel mean ko s0 os es s fs,
  kernels kernel = Some ko -> model_ok interned ko s0 -> calls_ok sample s0 os ->
  forall nl key kp sigma l, rpchol_init kernel mean (OInt (Z.of_nat nl)) (Some (OArr key)) kp sigma (OCall l) = Ok s0 -> plain key ->
  Lifecycle.run lossfn sample key_precond interned (SGPR_RPChol (rp_numerics la kernels means rest keyed)) os (s0, fun _ => None) = (es, (s, fs)) ->
  forall k sg mf p x y o m nf oo, holds ko s k sg -> means mean = Some mf -> wf nf k ->
  v_fresh (observe es) = true -> v_mode (observe es) = Fitted (Trained p (Targets x y) o) ->
  shaped [m; nf] x -> shaped [m; oo] y -> (nl <= m)%nat ->
  let locs : Mat := fun i => entry x (snd (rpcholesky (keyed (OArr key)) m nf (entry x) nl k) i) in
  exists xl, shaped [nl; nf] xl /\ (forall i j, (i < nl)%nat -> (j < nf)%nat -> entry xl i j = locs i j) /\
  forall q n, shaped [n; nf] (q_x q) -> compatible (q_full q) (q_iterative q) ->
  answers (base_predict (SGPR_RPChol (rp_numerics la kernels means rest keyed)) s q) (q_full q)
    n oo (sgpr la nl m oo nf k sg mf locs (entry x) (entry y) (entry (q_x q)))
    n (sg_predict_cov la nl n nf k sg (entry xl) (entry (q_x q))).
Proof. exact rp_predicts. Qed.
Print Assumptions C67_rpchol.

Theorem C67_rpchol_parameters : forall la kernels means rest keyed, plain_numerics rest ->
  forall lossfn sample key_precond interned kernel mean ko s0 os es s fs, model_ok interned ko s0 -> calls_ok sample s0 os ->
  forall nl key kp sigma l, rpchol_init kernel mean (OInt (Z.of_nat nl)) (Some (OArr key)) kp sigma (OCall l) = Ok s0 -> plain key ->
  Lifecycle.run lossfn sample key_precond interned (SGPR_RPChol (rp_numerics la kernels means rest keyed)) os (s0, fun _ => None) = (es, (s, fs)) ->
  exists k sg, holds ko s k sg /\ all_atoms (fun _ a => psd_atom a) k /\ ls_nonzero k /\ 0 < sg.
Proof. exact r_holds. Qed.
Print Assumptions C67_rpchol_parameters.

(** ** sparse models fitted to derivatives. The method fit_derivs of the sparse classes raises TypeError (C17): the function
    fit_derivs of their modules is called with the state, at the end of any history; the methods that predict are called
    with the state that it returns *)
Theorem C67_sgpr_derivatives : forall la, linalg_ok la -> forall kernels means rest, plain_numerics rest ->
  forall lossfn sample key_precond interned kernel mean ko s0 os es s fs,
  kernels kernel = Some ko -> model_ok interned ko s0 -> calls_ok sample s0 os ->
  forall k sg x y j o m nf nd x_locs jacobian_locs kp sigma l, sgpr_init kernel mean x_locs jacobian_locs kp sigma (OCall l) = Ok s0 ->
  let C := SGPR (sgpr_numerics la kernels means rest) in
  Lifecycle.run lossfn sample key_precond interned C os (s0, fun _ => None) = (es, (s, fs)) ->
  holds ko s k sg -> wf nf k -> dgram_ok k -> shaped [m; nf] x -> shaped [m; nd] y -> shaped [m; nf; nd] j ->
  forall nl nv xl jl, lookup ["x_locs"] (s_params s) = Some (Some xl) -> lookup ["jacobian_locs"] (s_params s) = Some (Some jl) ->
  shaped [nl; nf] (p_value xl) -> shaped [nl; nf; nv] (p_value jl) -> (o_iterative o = true -> nl = 1%nat \/ nv = 1%nat) ->
  let XL := entry (p_value xl) in let JL := entry3 (p_value jl) in
  exists u, state_fit C (Derivs x y j) o s = Ok u /\ s_params u = s_params s /\
  forall q n, shaped [n; nf] (q_x q) -> q_full q = false -> (q_iterative q = false -> no_m52 k) ->
  (forall jq ndq, q_jacobian q = Some jq -> shaped [n; nf; ndq] jq ->
   returns (base_predict_derivs C u q) n ndq (sgpr_derivs la nl m nf nv nd k sg XL JL (entry x) (entry3 j) (entry y) n ndq (entry (q_x q)) (entry3 jq))) /\
  returns (base_predict_y_derivs C u q) n 1 (sgpr_y_derivs la nl m nf nv nd k sg XL JL (entry x) (entry3 j) (entry y) n (entry (q_x q))).
Proof. intros la ok kernels means rest. exact (sgpr_predicts_derivs la ok kernels means rest). Qed.
Print Assumptions C67_sgpr_derivatives.
Theorem C67_rpchol_derivatives : forall la, linalg_ok la -> forall kernels means rest keyed, plain_numerics rest ->
  forall lossfn sample key_precond interned kernel mean ko s0 os es s fs,
  kernels kernel = Some ko -> model_ok interned ko s0 -> calls_ok sample s0 os ->
  forall k sg x y j o m nf nd nl key kp sigma l, rpchol_init kernel mean (OInt (Z.of_nat nl)) (Some (OArr key)) kp sigma (OCall l) = Ok s0 -> plain key ->
  let C := SGPR_RPChol (rp_numerics la kernels means rest keyed) in
  Lifecycle.run lossfn sample key_precond interned C os (s0, fun _ => None) = (es, (s, fs)) ->
  holds ko s k sg -> wf nf k -> dgram_ok k -> shaped [m; nf] x -> shaped [m; nd] y -> shaped [m; nf; nd] j ->
  (nl <= m)%nat -> (o_iterative o = true -> nl = 1%nat \/ nd = 1%nat) ->
  let pv := snd (rpcholesky (keyed (OArr key)) m nf (entry x) nl k) in
  let XL : Mat := fun i => entry x (pv i) in let JL : Ten := fun i => entry3 j (pv i) in
  exists u, state_fit C (Derivs x y j) o s = Ok u /\ s_params u = s_params s /\
  forall q n, shaped [n; nf] (q_x q) -> q_full q = false -> (q_iterative q = false -> no_m52 k) ->
  (forall jq ndq, q_jacobian q = Some jq -> shaped [n; nf; ndq] jq ->
   returns (base_predict_derivs C u q) n ndq (sgpr_derivs la nl m nf nd nd k sg XL JL (entry x) (entry3 j) (entry y) n ndq (entry (q_x q)) (entry3 jq))) /\
  returns (base_predict_y_derivs C u q) n 1 (sgpr_y_derivs la nl m nf nd nd k sg XL JL (entry x) (entry3 j) (entry y) n (entry (q_x q))).
Proof. exact rp_predicts_derivs. Qed.
Print Assumptions C67_rpchol_derivatives.
(** fitted to targets by fit_nlopt, with arrays that fit_derivs accepts *)
Example C67_sgpr_case : linalg_ok ref_la /\ let N := sgpr_numerics ref_la c_kernels c_means ex_num in
  plain_numerics ex_num /\ c_kernels (OCall 1) = Some (OAtom CSE None) /\ c_means (OCall 2) = Some zero_mean /\
  model_ok cpython_interned (OAtom CSE None) c_sg /\ calls_ok ex_sampler c_sg (c_nl c_sg) /\
  sgpr_init (OCall 1) (OCall 2) c_locs (Some c_jac_locs) (ex_kp 1) (scalar_param true 1) (OCall 7) = Ok c_sg /\
  shaped [2; 1]%nat cx /\ shaped [2; 1]%nat cy /\ shaped [2; 1; 1]%nat cj /\ exists es s fs k sg xl jl,
  Lifecycle.run ex_lossfn ex_sampler ONone cpython_interned (SGPR N) (c_nl c_sg) (c_sg, fun _ => None) = (es, (s, fs)) /\
  Forall (fun e => snd (fst e) = Ok tt) es /\ v_fresh (observe es) = true /\
  v_mode (observe es) = Fitted (Trained (s_params c_sg) (Targets cx cy) (Options false ONone)) /\
  holds (OAtom CSE None) s k sg /\ wf 1 k /\ dgram_ok k /\ no_m52 k /\
  lookup ["x_locs"] (s_params s) = Some (Some xl) /\ lookup ["jacobian_locs"] (s_params s) = Some (Some jl) /\
  shaped [1; 1]%nat (p_value xl) /\ shaped [1; 1; 1]%nat (p_value jl).
Proof. exact (conj ref_la_ok c_sg_case). Qed.
Example C67_rpchol_case : forall keyed, let N := rp_numerics ref_la c_kernels c_means ex_num keyed in
  plain_numerics ex_num /\ model_ok cpython_interned (OAtom CSE None) c_rp /\ calls_ok ex_sampler c_rp (c_nl c_rp) /\
  rpchol_init (OCall 1) (OCall 2) (OInt (Z.of_nat 1)) (Some (OArr ex_x1)) (ex_kp 1) (scalar_param true 1) (OCall 7) = Ok c_rp /\ plain ex_x1 /\ exists es s fs k sg,
  Lifecycle.run ex_lossfn ex_sampler ONone cpython_interned (SGPR_RPChol N) (c_nl c_rp) (c_rp, fun _ => None) = (es, (s, fs)) /\
  Forall (fun e => snd (fst e) = Ok tt) es /\ v_fresh (observe es) = true /\
  v_mode (observe es) = Fitted (Trained (s_params c_rp) (Targets cx cy) (Options false ONone)) /\
  holds (OAtom CSE None) s k sg /\ wf 1 k /\ dgram_ok k /\ no_m52 k.
Proof. exact c_rp_case. Qed.

(** ** every kernel object with default parameters gives such a model *)
Theorem C67_default : forall interned kernel mean l ko, obj_ok kernel -> obj_ok mean ->
  exists t s sg, default_params ko = Ok t /\ def 1 true Softplus gamma_prior = Ok (Leaf (Some sg)) /\
    gpr_init kernel mean t sg (OCall l) = Ok s /\ model_ok interned ko s.
Proof. exact default_model. Qed.
Print Assumptions C67_default.
(** a minimising fit, save, randomise with reset, load *)
Example C67_case : linalg_ok ref_la /\ forall choose, let N := gpr_numerics ref_la choose c_kernels c_means ex_num in
  plain_numerics ex_num /\ c_kernels (OCall 1) = Some (OAtom CSE None) /\ c_means (OCall 2) = Some zero_mean /\
  model_ok cpython_interned (OAtom CSE None) (ex_s0 1) /\ calls_ok ex_sampler (ex_s0 1) c_ops /\
  gpr_init (OCall 1) (OCall 2) (ex_kp 1) (scalar_param true 1) (OCall 7) = Ok (ex_s0 1) /\
  shaped [2; 1]%nat cx /\ shaped [2; 1]%nat cy /\ exists es s fs,
  Lifecycle.run ex_lossfn ex_sampler ONone cpython_interned (GPR N) c_ops (ex_s0 1, fun _ => None) = (es, (s, fs)) /\
  Forall (fun e => snd (fst e) = Ok tt) es /\ v_fresh (observe es) = true /\
  v_mode (observe es) = Fitted (Trained (ex_params (forward Softplus 1) 1 (forward Softplus 1)) (Targets cx cy) (Options false ONone)).
Proof. exact (conj ref_la_ok c_case). Qed.
