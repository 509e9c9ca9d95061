(** Property C69: what training does, from the construction of a model over its whole history to the score of the
    parameters that are kept. Likelihoods and losses are those of Model/Training.v. The score of a state is the log
    density of the data, per sample, written with the kernel function (Spec/TrainingSpec.v). *)
From Coq Require Import String List Reals Arith Bool ZArith.
From Verif Require Import Base.Sums Base.Mat Model.Arrays Model.Kernels Model.LinAlg Model.RPCholesky Model.Priors Model.GPR Model.PyDict Model.Bijectors Model.Params Model.State
  Model.Optim Model.Calls Model.Lifecycle Model.KernelObj Model.Concrete Model.Training
  Spec.KernelSpec Spec.GPSpec Spec.StateSpec Spec.RandomSpec Spec.OptimSpec Spec.LifecycleSpec Spec.KernelObjSpec Spec.ConcreteSpec Spec.TrainingSpec
  Proofs.LinAlgFacts Proofs.StateExamples Proofs.DispatchFacts Proofs.ConcreteExamples Proofs.ConcreteSparseExamples Proofs.TrainingPropLemmas Proofs.TrainingStatements Proofs.TrainingExamples.
Import ListNotations.
Open Scope string_scope.
Open Scope R_scope.

(** ** the likelihood methods return the score of the state, whatever was done before, or minus it *)
(** GPR *)
Theorem C69_score : forall la, linalg_ok la -> forall choose kernels means rest, plain_numerics rest ->
  forall restl lossfn sample key_precond interned kernel mean ko s0 os es s fs,
  kernels kernel = Some ko -> model_ok interned ko s0 -> calls_ok sample s0 os ->
  forall kp sigma l, gpr_init kernel mean kp sigma (OCall l) = Ok s0 ->
  let C := GPR (gpr_numerics la choose kernels means rest) in
  Lifecycle.run lossfn sample key_precond interned C os (s0, fun _ => None) = (es, (s, fs)) ->
  forall mf x y m nf, means mean = Some mf -> shaped [m; nf] x -> shaped [m; 1%nat] y -> (0 < m)%nat ->
  exists v, gpr_score ko nf m mf x y s v /\
  forall neg, base_lml (lml_sig Dense TTargets) (c_gpr_lml la kernels means restl) s (Targets x y) false neg = Ok (Some (if neg : bool then - v else v)).
Proof. exact C69_score_lemma. Qed.
Print Assumptions C69_score.
(** GPR on derivatives: covariance of the derivatives of a sample of the prior, for kernels that have them *)
Theorem C69_derivatives_score : forall la, linalg_ok la -> forall choose kernels means rest, plain_numerics rest ->
  forall restl lossfn sample key_precond interned kernel mean ko s0 os es s fs,
  kernels kernel = Some ko -> model_ok interned ko s0 -> calls_ok sample s0 os ->
  forall kp sigma l, gpr_init kernel mean kp sigma (OCall l) = Ok s0 ->
  let C := GPR (gpr_numerics la choose kernels means rest) in
  Lifecycle.run lossfn sample key_precond interned C os (s0, fun _ => None) = (es, (s, fs)) ->
  forall x y j m nf nv, (forall t k, reads ["kernel_params"] ko t k -> wf nf k /\ dgram_ok k) ->
  shaped [m; nf] x -> shaped [m; nv] y -> shaped [m; nf; nv] j -> (0 < m * nv)%nat ->
  exists v, gpr_score_derivs ko nf nv m x y j s v /\
  forall neg, base_lml (lml_sig Dense TDerivs) (c_gpr_lml la kernels means restl) s (Derivs x y j) false neg = Ok (Some (if neg : bool then - v else v)).
Proof. exact C69_derivatives_score_lemma. Qed.
Print Assumptions C69_derivatives_score.
(** SGPR, with the current inducing points *)
Theorem C69_sgpr_score : forall la, linalg_ok la -> forall kernels means rest, plain_numerics rest ->
  forall restl lossfn sample key_precond interned kernel mean ko s0 os es s fs,
  kernels kernel = Some ko -> model_ok interned ko s0 -> calls_ok sample s0 os ->
  forall x_locs jacobian_locs kp sigma l, sgpr_init kernel mean x_locs jacobian_locs kp sigma (OCall l) = Ok s0 ->
  let C := SGPR (sgpr_numerics la kernels means rest) in
  Lifecycle.run lossfn sample key_precond interned C os (s0, fun _ => None) = (es, (s, fs)) ->
  forall mf x y m nf nl xl0, lookup ["x_locs"] (s_params s0) = Some (Some xl0) -> shaped [nl; nf] (p_value xl0) ->
  means mean = Some mf -> shaped [m; nf] x -> shaped [m; 1%nat] y -> (0 < m)%nat ->
  exists v, sgpr_score ko nf nl m mf x y s v /\
  forall neg, base_lml (lml_sig Sparse TTargets) (c_sgpr_lml la kernels means restl) s (Targets x y) false neg = Ok (Some (if neg : bool then - v else v)).
Proof. exact C69_sgpr_score_lemma. Qed.
Print Assumptions C69_sgpr_score.
(** SGPR_RPChol, with the inducing points that the current kernel picks *)
Theorem C69_rpchol_score : forall la, linalg_ok la -> forall kernels means rest keyed, plain_numerics rest ->
  forall restl lossfn sample key_precond interned kernel mean ko s0 os es s fs,
  kernels kernel = Some ko -> model_ok interned ko s0 -> calls_ok sample s0 os ->
  forall nl key kp sigma l, rpchol_init kernel mean (OInt (Z.of_nat nl)) (Some (OArr key)) kp sigma (OCall l) = Ok s0 -> plain key ->
  let C := SGPR_RPChol (rp_numerics la kernels means rest keyed) in
  Lifecycle.run lossfn sample key_precond interned C os (s0, fun _ => None) = (es, (s, fs)) ->
  forall mf x y m nf, means mean = Some mf -> shaped [m; nf] x -> shaped [m; 1%nat] y -> (0 < m)%nat -> (nl <= m)%nat ->
  exists v, rp_score ko (keyed (OArr key)) nf nl m mf x y s v /\
  forall neg, base_lml (lml_sig Sparse TTargets) (c_rp_lml la kernels means keyed restl) s (Targets x y) false neg = Ok (Some (if neg : bool then - v else v)).
Proof. exact C69_rpchol_score_lemma. Qed.
Print Assumptions C69_rpchol_score.
(** a state has one score *)
Theorem C69_one_score : forall la choose kernels means rest, plain_numerics rest ->
  forall lossfn sample key_precond interned kernel mean ko s0 os es s fs, model_ok interned ko s0 -> calls_ok sample s0 os ->
  forall kp sigma l, gpr_init kernel mean kp sigma (OCall l) = Ok s0 ->
  Lifecycle.run lossfn sample key_precond interned (GPR (gpr_numerics la choose kernels means rest)) os (s0, fun _ => None) = (es, (s, fs)) ->
  forall nf m mf x y v v', (0 < m)%nat -> gpr_score ko nf m mf x y s v -> gpr_score ko nf m mf x y s v' -> v = v'.
Proof. exact gpr_one_score. Qed.
Print Assumptions C69_one_score.

(** ** what the optimiser sees: at every vector it proposes, the value is minus the score of the state with these
    parameters, plus the log density of the parameters if the loss is a posterior *)
Theorem C69_objective : forall la, linalg_ok la -> forall choose kernels means rest, plain_numerics rest ->
  forall gammaln restl named grad own sample key_precond interned kernel mean ko s0 os es s fs,
  kernels kernel = Some ko -> model_ok interned ko s0 -> calls_ok sample s0 os ->
  forall kp sigma l, gpr_init kernel mean kp sigma (OCall l) = Ok s0 ->
  let lml := c_gpr_lml la kernels means restl in let lossfn := library gammaln restl Dense lml named grad own in let C := GPR (gpr_numerics la choose kernels means rest) in
  Lifecycle.run lossfn sample key_precond interned C os (s0, fun _ => None) = (es, (s, fs)) ->
  forall lib, named (OCall l) = Some lib -> startable (s_params s0) -> (with_prior lib = true -> all_numbers (s_params s0)) -> loss_for TTargets lib ->
  forall mf x y m nf, means mean = Some mf -> shaped [m; nf] x -> shaped [m; 1%nat] y -> (0 < m)%nat ->
  forall a strat, trains a strat -> exists f, lossfn (OCall l) = Some f /\
  forall z, like_start (ravel_backward (s_params s)) z -> exists p v g, unravel_forward (s_params s) z = Ok p /\
  let u := State (s_kernel s) (s_mean s) p (s_register s) in
  objective (s_params s) s (loss_positional f (Targets x y) (fit_loss_kwargs key_precond a)) z = Ok (u, (Some (- v), g)) /\
  total_score gammaln lib (gpr_score ko nf m mf x y) u v.
Proof. exact C69_objective_lemma. Qed.
Print Assumptions C69_objective.

(** ** training. It succeeds; the parameters kept are the best of those found by the first minimisation and after the
    restarts; the first minimisation is the one made without restarts, so that restarts never lower the score; the
    likelihood method afterwards returns the score that training has found *)
(** GPR *)
Theorem C69_training : forall la, linalg_ok la -> forall choose kernels means rest, plain_numerics rest ->
  forall gammaln restl named grad own sample key_precond interned kernel mean ko s0 os es s fs,
  kernels kernel = Some ko -> model_ok interned ko s0 -> calls_ok sample s0 os ->
  forall kp sigma l, gpr_init kernel mean kp sigma (OCall l) = Ok s0 ->
  let lml := c_gpr_lml la kernels means restl in let lossfn := library gammaln restl Dense lml named grad own in let C := GPR (gpr_numerics la choose kernels means rest) in
  Lifecycle.run lossfn sample key_precond interned C os (s0, fun _ => None) = (es, (s, fs)) ->
  forall lib, named (OCall l) = Some lib -> startable (s_params s0) -> (with_prior lib = true -> all_numbers (s_params s0)) -> loss_for TTargets lib ->
  forall mf x y m nf, means mean = Some mf -> shaped [m; nf] x -> shaped [m; 1%nat] y -> (0 < m)%nat ->
  forall a strat, trains a strat -> let score := total_score gammaln lib (gpr_score ko nf m mf x y) in
  exists s' s1 best v1, base_fit lossfn sample key_precond C (Targets x y) a s = (Ok tt, s') /\ base_fit lossfn sample key_precond C (Targets x y) (no_restarts a) s = (Ok tt, s1) /\
  trained a score (s_params s1) (s_params s') best /\ score s' best /\ score s1 v1 /\ v1 <= best /\
  (with_prior lib = false -> base_lml (lml_sig Dense TTargets) lml s' (Targets x y) false false = Ok (Some best) /\
                             base_lml (lml_sig Dense TTargets) lml s1 (Targets x y) false false = Ok (Some v1)).
Proof. exact C69_training_lemma. Qed.
Print Assumptions C69_training.
(** GPR on derivatives *)
Theorem C69_derivatives_training : forall la, linalg_ok la -> forall choose kernels means rest, plain_numerics rest ->
  forall gammaln restl named grad own sample key_precond interned kernel mean ko s0 os es s fs,
  kernels kernel = Some ko -> model_ok interned ko s0 -> calls_ok sample s0 os ->
  forall kp sigma l, gpr_init kernel mean kp sigma (OCall l) = Ok s0 ->
  let lml := c_gpr_lml la kernels means restl in let lossfn := library gammaln restl Dense lml named grad own in let C := GPR (gpr_numerics la choose kernels means rest) in
  Lifecycle.run lossfn sample key_precond interned C os (s0, fun _ => None) = (es, (s, fs)) ->
  forall lib, named (OCall l) = Some lib -> startable (s_params s0) -> (with_prior lib = true -> all_numbers (s_params s0)) -> loss_for TDerivs lib ->
  forall x y j m nf nv, (forall t k, reads ["kernel_params"] ko t k -> wf nf k /\ dgram_ok k) ->
  shaped [m; nf] x -> shaped [m; nv] y -> shaped [m; nf; nv] j -> (0 < m * nv)%nat ->
  forall a strat, trains a strat -> let score := total_score gammaln lib (gpr_score_derivs ko nf nv m x y j) in
  exists s' s1 best v1, base_fit lossfn sample key_precond C (Derivs x y j) a s = (Ok tt, s') /\ base_fit lossfn sample key_precond C (Derivs x y j) (no_restarts a) s = (Ok tt, s1) /\
  trained a score (s_params s1) (s_params s') best /\ score s' best /\ score s1 v1 /\ v1 <= best /\
  (with_prior lib = false -> base_lml (lml_sig Dense TDerivs) lml s' (Derivs x y j) false false = Ok (Some best) /\
                             base_lml (lml_sig Dense TDerivs) lml s1 (Derivs x y j) false false = Ok (Some v1)).
Proof. exact C69_derivatives_training_lemma. Qed.
Print Assumptions C69_derivatives_training.
(** GPR through NLopt *)
Theorem C69_nlopt : forall la, linalg_ok la -> forall choose kernels means rest, plain_numerics rest ->
  forall gammaln restl named grad own sample key_precond interned kernel mean ko s0 os es s fs,
  kernels kernel = Some ko -> model_ok interned ko s0 -> calls_ok sample s0 os ->
  forall kp sigma l, gpr_init kernel mean kp sigma (OCall l) = Ok s0 ->
  let lml := c_gpr_lml la kernels means restl in let lossfn := library gammaln restl Dense lml named grad own in let C := GPR (gpr_numerics la choose kernels means rest) in
  Lifecycle.run lossfn sample key_precond interned C os (s0, fun _ => None) = (es, (s, fs)) ->
  forall lib, named (OCall l) = Some lib -> startable (s_params s0) -> (with_prior lib = true -> all_numbers (s_params s0)) -> loss_for TTargets lib ->
  forall mf x y m nf, means mean = Some mf -> shaped [m; nf] x -> shaped [m; 1%nat] y -> (0 < m)%nat ->
  forall w a strat, state_ok w -> same_frozen (s_params w) (s_params s0) -> trains a strat -> let score := total_score gammaln lib (gpr_score ko nf m mf x y) in
  exists s' s1 best v1, base_fit_nlopt lossfn sample C x y w a s = (Ok tt, s') /\ base_fit_nlopt lossfn sample C x y w (no_restarts a) s = (Ok tt, s1) /\
  trained a score (s_params s1) (s_params s') best /\ score s' best /\ score s1 v1 /\ v1 <= best /\
  (with_prior lib = false -> base_lml (lml_sig Dense TTargets) lml s' (Targets x y) false false = Ok (Some best) /\
                             base_lml (lml_sig Dense TTargets) lml s1 (Targets x y) false false = Ok (Some v1)).
Proof. exact C69_nlopt_lemma. Qed.
Print Assumptions C69_nlopt.
(** SGPR, whose method fit raises (C17), through NLopt *)
Theorem C69_sgpr_nlopt : forall la, linalg_ok la -> forall kernels means rest, plain_numerics rest ->
  forall gammaln restl named grad own sample key_precond interned kernel mean ko s0 os es s fs,
  kernels kernel = Some ko -> model_ok interned ko s0 -> calls_ok sample s0 os ->
  forall x_locs jacobian_locs kp sigma l, sgpr_init kernel mean x_locs jacobian_locs kp sigma (OCall l) = Ok s0 ->
  let lml := c_sgpr_lml la kernels means restl in let lossfn := library gammaln restl Sparse lml named grad own in let C := SGPR (sgpr_numerics la kernels means rest) in
  Lifecycle.run lossfn sample key_precond interned C os (s0, fun _ => None) = (es, (s, fs)) ->
  forall lib, named (OCall l) = Some lib -> startable (s_params s0) -> (with_prior lib = true -> all_numbers (s_params s0)) -> loss_for TTargets lib ->
  forall mf x y m nf nl xl0, lookup ["x_locs"] (s_params s0) = Some (Some xl0) -> shaped [nl; nf] (p_value xl0) ->
  means mean = Some mf -> shaped [m; nf] x -> shaped [m; 1%nat] y -> (0 < m)%nat ->
  forall w a strat, state_ok w -> same_frozen (s_params w) (s_params s0) -> trains a strat -> let score := total_score gammaln lib (sgpr_score ko nf nl m mf x y) in
  exists s' s1 best v1, base_fit_nlopt lossfn sample C x y w a s = (Ok tt, s') /\ base_fit_nlopt lossfn sample C x y w (no_restarts a) s = (Ok tt, s1) /\
  trained a score (s_params s1) (s_params s') best /\ score s' best /\ score s1 v1 /\ v1 <= best /\
  (with_prior lib = false -> base_lml (lml_sig Sparse TTargets) lml s' (Targets x y) false false = Ok (Some best) /\
                             base_lml (lml_sig Sparse TTargets) lml s1 (Targets x y) false false = Ok (Some v1)).
Proof. exact C69_sgpr_nlopt_lemma. Qed.
Print Assumptions C69_sgpr_nlopt.
(** SGPR_RPChol *)
Theorem C69_rpchol_nlopt : forall la, linalg_ok la -> forall kernels means rest keyed, plain_numerics rest ->
  forall gammaln restl named grad own sample key_precond interned kernel mean ko s0 os es s fs,
  kernels kernel = Some ko -> model_ok interned ko s0 -> calls_ok sample s0 os ->
  forall nl key kp sigma l, rpchol_init kernel mean (OInt (Z.of_nat nl)) (Some (OArr key)) kp sigma (OCall l) = Ok s0 -> plain key ->
  let lml := c_rp_lml la kernels means keyed restl in let lossfn := library gammaln restl Sparse lml named grad own in let C := SGPR_RPChol (rp_numerics la kernels means rest keyed) in
  Lifecycle.run lossfn sample key_precond interned C os (s0, fun _ => None) = (es, (s, fs)) ->
  forall lib, named (OCall l) = Some lib -> startable (s_params s0) -> (with_prior lib = true -> all_numbers (s_params s0)) -> loss_for TTargets lib ->
  forall mf x y m nf, means mean = Some mf -> shaped [m; nf] x -> shaped [m; 1%nat] y -> (0 < m)%nat -> (nl <= m)%nat ->
  forall w a strat, state_ok w -> same_frozen (s_params w) (s_params s0) -> trains a strat -> let score := total_score gammaln lib (rp_score ko (keyed (OArr key)) nf nl m mf x y) in
  exists s' s1 best v1, base_fit_nlopt lossfn sample C x y w a s = (Ok tt, s') /\ base_fit_nlopt lossfn sample C x y w (no_restarts a) s = (Ok tt, s1) /\
  trained a score (s_params s1) (s_params s') best /\ score s' best /\ score s1 v1 /\ v1 <= best /\
  (with_prior lib = false -> base_lml (lml_sig Sparse TTargets) lml s' (Targets x y) false false = Ok (Some best) /\
                             base_lml (lml_sig Sparse TTargets) lml s1 (Targets x y) false false = Ok (Some v1)).
Proof. exact C69_rpchol_nlopt_lemma. Qed.
Print Assumptions C69_rpchol_nlopt.

(** ** every kernel object with default parameters gives a model that can be trained, with either loss *)
Theorem C69_default : forall interned kernel mean l ko, obj_ok kernel -> obj_ok mean ->
  exists t s sg, default_params ko = Ok t /\ def 1 true Softplus gamma_prior = Ok (Leaf (Some sg)) /\
    gpr_init kernel mean t sg (OCall l) = Ok s /\ model_ok interned ko s /\ startable (s_params s) /\ all_numbers (s_params s).
Proof. exact default_trainable. Qed.
Print Assumptions C69_default.
(** models after two draws of parameters and a save; an optimiser that evaluates the loss at its start and returns it; any
    number of restarts *)
Example C69_case : linalg_ok ref_la /\ forall choose lib gammaln restl grad own key_precond, let N := gpr_numerics ref_la choose c_kernels c_means ex_num in
  let lossfn := library gammaln restl Dense (c_gpr_lml ref_la c_kernels c_means restl) (t_named lib) grad own in
  plain_numerics ex_num /\ c_kernels (OCall 1) = Some (OAtom CSE None) /\ c_means (OCall 2) = Some zero_mean /\
  model_ok cpython_interned (OAtom CSE None) (ex_s0 1) /\ calls_ok ex_sampler (ex_s0 1) t_ops /\
  gpr_init (OCall 1) (OCall 2) (ex_kp 1) (scalar_param true 1) (OCall 7) = Ok (ex_s0 1) /\ t_named lib (OCall 7) = Some lib /\
  startable (s_params (ex_s0 1)) /\ all_numbers (s_params (ex_s0 1)) /\
  (forall t k, reads ["kernel_params"] (OAtom CSE None) t k -> wf 1 k /\ dgram_ok k) /\
  shaped [2; 1]%nat cx /\ shaped [2; 1]%nat cy /\ shaped [2; 1; 1]%nat cj /\ (forall n, trains (t_args n) t_strat) /\ exists es s fs,
  Lifecycle.run lossfn ex_sampler key_precond cpython_interned (GPR N) t_ops (ex_s0 1, fun _ => None) = (es, (s, fs)) /\ Forall (fun e => snd (fst e) = Ok tt) es.
Proof. exact (conj ref_la_ok t_case). Qed.
Example C69_sgpr_case : forall lib gammaln restl grad own key_precond, let N := sgpr_numerics ref_la c_kernels c_means ex_num in
  let lossfn := library gammaln restl Sparse (c_sgpr_lml ref_la c_kernels c_means restl) (t_named lib) grad own in
  model_ok cpython_interned (OAtom CSE None) c_sg /\ calls_ok ex_sampler c_sg t_ops /\
  sgpr_init (OCall 1) (OCall 2) c_locs (Some c_jac_locs) (ex_kp 1) (scalar_param true 1) (OCall 7) = Ok c_sg /\
  startable (s_params c_sg) /\ lookup ["x_locs"] (s_params c_sg) = Some (Some c_locs) /\ shaped [1; 1]%nat (p_value c_locs) /\
  state_ok c_sg /\ same_frozen (s_params c_sg) (s_params c_sg) /\ exists es s fs,
  Lifecycle.run lossfn ex_sampler key_precond cpython_interned (SGPR N) t_ops (c_sg, fun _ => None) = (es, (s, fs)) /\ Forall (fun e => snd (fst e) = Ok tt) es.
Proof. exact t_sparse. Qed.
Example C69_rpchol_case : forall keyed lib gammaln restl grad own key_precond, let N := rp_numerics ref_la c_kernels c_means ex_num keyed in
  let lossfn := library gammaln restl Sparse (c_rp_lml ref_la c_kernels c_means keyed restl) (t_named lib) grad own in
  model_ok cpython_interned (OAtom CSE None) c_rp /\ calls_ok ex_sampler c_rp t_ops /\
  rpchol_init (OCall 1) (OCall 2) (OInt (Z.of_nat 1)) (Some (OArr ex_x1)) (ex_kp 1) (scalar_param true 1) (OCall 7) = Ok c_rp /\ plain ex_x1 /\
  startable (s_params c_rp) /\ all_numbers (s_params c_rp) /\ state_ok c_rp /\ same_frozen (s_params c_rp) (s_params c_rp) /\ exists es s fs,
  Lifecycle.run lossfn ex_sampler key_precond cpython_interned (SGPR_RPChol N) t_ops (c_rp, fun _ => None) = (es, (s, fs)) /\ Forall (fun e => snd (fst e) = Ok tt) es.
Proof. exact t_pivoted. Qed.
