(** The statements of Props/TrainingProps.v, from the lemmas with their contexts. *)
From Coq Require Import String List Bool Arith Reals ZArith Lia Lra.
From Verif Require Import Base.Sums Base.Mat Model.Arrays Model.Kernels Model.LinAlg Model.RPCholesky Model.Priors Model.GPR Model.SGPR Model.SGPRMore
  Model.PyDict Model.Bijectors Model.Params Model.State Model.Optim Model.Calls Model.Lifecycle Model.KernelObj Model.Public Model.Concrete Model.Training
  Spec.BijectorSpec Spec.KernelSpec Spec.GPSpec Spec.SparseSpec Spec.MVN Spec.PriorSpec Spec.StateSpec Spec.RandomSpec Spec.OptimSpec Spec.SearchSpec Spec.LifecycleSpec
  Spec.KernelObjSpec Spec.ConcreteSpec Spec.TrainingSpec
  Proofs.DictFacts Proofs.TreeFacts Proofs.StateFacts Proofs.SaveLoad Proofs.OptimFacts Proofs.OptimRun Proofs.KernelObjRun Proofs.LifecycleFacts Proofs.LifecyclePropLemmas
  Proofs.LifecycleParams Proofs.DispatchFacts Proofs.StatePropLemmas Proofs.LinAlgFacts Proofs.ConcreteFacts Proofs.ConcretePropLemmas Proofs.ConcreteSparse
  Proofs.TrainingRun Proofs.TrainingFacts Proofs.TrainingPropLemmas.
Import ListNotations.
Open Scope string_scope.
Open Scope R_scope.


Lemma C69_score_lemma : forall la, linalg_ok la -> forall choose kernels means rest, plain_numerics rest ->
  forall restl lossfn sample key_precond interned kernel mean ko s0 os es s fs,
  kernels kernel = Some ko -> model_ok interned ko s0 -> calls_ok sample s0 os ->
  forall kp sigma l, gpr_init kernel mean kp sigma (OCall l) = Ok s0 ->
  let C := GPR (gpr_numerics la choose kernels means rest) in
  Lifecycle.run lossfn sample key_precond interned C os (s0, fun _ => None) = (es, (s, fs)) ->
  forall mf x y m nf, means mean = Some mf -> shaped [m; nf] x -> shaped [m; 1%nat] y -> (0 < m)%nat ->
  exists v, gpr_score ko nf m mf x y s v /\
  forall neg, base_lml (lml_sig Dense TTargets) (c_gpr_lml la kernels means restl) s (Targets x y) false neg = Ok (Some (if neg : bool then - v else v)).
Proof. cbv zeta. intros. eapply gpr_scores; first [eassumption|exact (fun _ _ => O)|exact (fun _ _ _ => O)|exact (fun _ => None)|exact (fun _ _ _ => 0)]. Qed.
Lemma C69_derivatives_score_lemma : forall la, linalg_ok la -> forall choose kernels means rest, plain_numerics rest ->
  forall restl lossfn sample key_precond interned kernel mean ko s0 os es s fs,
  kernels kernel = Some ko -> model_ok interned ko s0 -> calls_ok sample s0 os ->
  forall kp sigma l, gpr_init kernel mean kp sigma (OCall l) = Ok s0 ->
  let C := GPR (gpr_numerics la choose kernels means rest) in
  Lifecycle.run lossfn sample key_precond interned C os (s0, fun _ => None) = (es, (s, fs)) ->
  forall x y j m nf nv, (forall t k, reads ["kernel_params"] ko t k -> wf nf k /\ dgram_ok k) ->
  shaped [m; nf] x -> shaped [m; nv] y -> shaped [m; nf; nv] j -> (0 < m * nv)%nat ->
  exists v, gpr_score_derivs ko nf nv m x y j s v /\
  forall neg, base_lml (lml_sig Dense TDerivs) (c_gpr_lml la kernels means restl) s (Derivs x y j) false neg = Ok (Some (if neg : bool then - v else v)).
Proof. cbv zeta. intros. eapply gpr_scores_derivs; first [eassumption|exact (fun _ _ => O)|exact (fun _ _ _ => O)|exact (fun _ => None)|exact (fun _ _ _ => 0)]. Qed.
Lemma C69_sgpr_score_lemma : forall la, linalg_ok la -> forall kernels means rest, plain_numerics rest ->
  forall restl lossfn sample key_precond interned kernel mean ko s0 os es s fs,
  kernels kernel = Some ko -> model_ok interned ko s0 -> calls_ok sample s0 os ->
  forall x_locs jacobian_locs kp sigma l, sgpr_init kernel mean x_locs jacobian_locs kp sigma (OCall l) = Ok s0 ->
  let C := SGPR (sgpr_numerics la kernels means rest) in
  Lifecycle.run lossfn sample key_precond interned C os (s0, fun _ => None) = (es, (s, fs)) ->
  forall mf x y m nf nl xl0, lookup ["x_locs"] (s_params s0) = Some (Some xl0) -> shaped [nl; nf] (p_value xl0) ->
  means mean = Some mf -> shaped [m; nf] x -> shaped [m; 1%nat] y -> (0 < m)%nat ->
  exists v, sgpr_score ko nf nl m mf x y s v /\
  forall neg, base_lml (lml_sig Sparse TTargets) (c_sgpr_lml la kernels means restl) s (Targets x y) false neg = Ok (Some (if neg : bool then - v else v)).
Proof. cbv zeta. intros. eapply sgpr_scores; first [eassumption|exact (fun _ _ => O)|exact (fun _ _ _ => O)|exact (fun _ => None)|exact (fun _ _ _ => 0)]. Qed.
Lemma C69_rpchol_score_lemma : forall la, linalg_ok la -> forall kernels means rest keyed, plain_numerics rest ->
  forall restl lossfn sample key_precond interned kernel mean ko s0 os es s fs,
  kernels kernel = Some ko -> model_ok interned ko s0 -> calls_ok sample s0 os ->
  forall nl key kp sigma l, rpchol_init kernel mean (OInt (Z.of_nat nl)) (Some (OArr key)) kp sigma (OCall l) = Ok s0 -> plain key ->
  let C := SGPR_RPChol (rp_numerics la kernels means rest keyed) in
  Lifecycle.run lossfn sample key_precond interned C os (s0, fun _ => None) = (es, (s, fs)) ->
  forall mf x y m nf, means mean = Some mf -> shaped [m; nf] x -> shaped [m; 1%nat] y -> (0 < m)%nat -> (nl <= m)%nat ->
  exists v, rp_score ko (keyed (OArr key)) nf nl m mf x y s v /\
  forall neg, base_lml (lml_sig Sparse TTargets) (c_rp_lml la kernels means keyed restl) s (Targets x y) false neg = Ok (Some (if neg : bool then - v else v)).
Proof. cbv zeta. intros. eapply rp_scores; first [eassumption|exact (fun _ _ => O)|exact (fun _ _ _ => O)|exact (fun _ => None)|exact (fun _ _ _ => 0)]. Qed.
Lemma C69_objective_lemma : forall la, linalg_ok la -> forall choose kernels means rest, plain_numerics rest ->
  forall gammaln restl named grad own sample key_precond interned kernel mean ko s0 os es s fs,
  kernels kernel = Some ko -> model_ok interned ko s0 -> calls_ok sample s0 os ->
  forall kp sigma l, gpr_init kernel mean kp sigma (OCall l) = Ok s0 ->
  let lml := c_gpr_lml la kernels means restl in let lossfn := library gammaln restl Dense lml named grad own in let C := GPR (gpr_numerics la choose kernels means rest) in
  Lifecycle.run lossfn sample key_precond interned C os (s0, fun _ => None) = (es, (s, fs)) ->
  forall lib, named (OCall l) = Some lib -> startable (s_params s0) -> (with_prior lib = true -> all_numbers (s_params s0)) -> loss_for TTargets lib ->
  forall mf x y m nf, means mean = Some mf -> shaped [m; nf] x -> shaped [m; 1%nat] y -> (0 < m)%nat ->
  forall a strat, trains a strat -> exists f, lossfn (OCall l) = Some f /\
  forall z, like_start (ravel_backward (s_params s)) z -> exists p v g, unravel_forward (s_params s) z = Ok p /\
  let u := State (s_kernel s) (s_mean s) p (s_register s) in
  objective (s_params s) s (loss_positional f (Targets x y) (fit_loss_kwargs key_precond a)) z = Ok (u, (Some (- v), g)) /\
  total_score gammaln lib (gpr_score ko nf m mf x y) u v.
Proof. cbv zeta. intros. eapply gpr_objective; first [eassumption|exact (fun _ _ => O)|exact (fun _ _ _ => O)|exact (fun _ => None)|exact (fun _ _ _ => 0)]. Qed.
Lemma C69_training_lemma : forall la, linalg_ok la -> forall choose kernels means rest, plain_numerics rest ->
  forall gammaln restl named grad own sample key_precond interned kernel mean ko s0 os es s fs,
  kernels kernel = Some ko -> model_ok interned ko s0 -> calls_ok sample s0 os ->
  forall kp sigma l, gpr_init kernel mean kp sigma (OCall l) = Ok s0 ->
  let lml := c_gpr_lml la kernels means restl in let lossfn := library gammaln restl Dense lml named grad own in let C := GPR (gpr_numerics la choose kernels means rest) in
  Lifecycle.run lossfn sample key_precond interned C os (s0, fun _ => None) = (es, (s, fs)) ->
  forall lib, named (OCall l) = Some lib -> startable (s_params s0) -> (with_prior lib = true -> all_numbers (s_params s0)) -> loss_for TTargets lib ->
  forall mf x y m nf, means mean = Some mf -> shaped [m; nf] x -> shaped [m; 1%nat] y -> (0 < m)%nat ->
  forall a strat, trains a strat -> let score := total_score gammaln lib (gpr_score ko nf m mf x y) in
  exists s' s1 best v1, base_fit lossfn sample key_precond C (Targets x y) a s = (Ok tt, s') /\ base_fit lossfn sample key_precond C (Targets x y) (no_restarts a) s = (Ok tt, s1) /\
  trained a score (s_params s1) (s_params s') best /\ score s' best /\ score s1 v1 /\ v1 <= best /\
  (with_prior lib = false -> base_lml (lml_sig Dense TTargets) lml s' (Targets x y) false false = Ok (Some best) /\
                             base_lml (lml_sig Dense TTargets) lml s1 (Targets x y) false false = Ok (Some v1)).
Proof. cbv zeta. intros. eapply gpr_training; first [eassumption|exact (fun _ _ => O)|exact (fun _ _ _ => O)|exact (fun _ => None)|exact (fun _ _ _ => 0)]. Qed.
Lemma C69_derivatives_training_lemma : forall la, linalg_ok la -> forall choose kernels means rest, plain_numerics rest ->
  forall gammaln restl named grad own sample key_precond interned kernel mean ko s0 os es s fs,
  kernels kernel = Some ko -> model_ok interned ko s0 -> calls_ok sample s0 os ->
  forall kp sigma l, gpr_init kernel mean kp sigma (OCall l) = Ok s0 ->
  let lml := c_gpr_lml la kernels means restl in let lossfn := library gammaln restl Dense lml named grad own in let C := GPR (gpr_numerics la choose kernels means rest) in
  Lifecycle.run lossfn sample key_precond interned C os (s0, fun _ => None) = (es, (s, fs)) ->
  forall lib, named (OCall l) = Some lib -> startable (s_params s0) -> (with_prior lib = true -> all_numbers (s_params s0)) -> loss_for TDerivs lib ->
  forall x y j m nf nv, (forall t k, reads ["kernel_params"] ko t k -> wf nf k /\ dgram_ok k) ->
  shaped [m; nf] x -> shaped [m; nv] y -> shaped [m; nf; nv] j -> (0 < m * nv)%nat ->
  forall a strat, trains a strat -> let score := total_score gammaln lib (gpr_score_derivs ko nf nv m x y j) in
  exists s' s1 best v1, base_fit lossfn sample key_precond C (Derivs x y j) a s = (Ok tt, s') /\ base_fit lossfn sample key_precond C (Derivs x y j) (no_restarts a) s = (Ok tt, s1) /\
  trained a score (s_params s1) (s_params s') best /\ score s' best /\ score s1 v1 /\ v1 <= best /\
  (with_prior lib = false -> base_lml (lml_sig Dense TDerivs) lml s' (Derivs x y j) false false = Ok (Some best) /\
                             base_lml (lml_sig Dense TDerivs) lml s1 (Derivs x y j) false false = Ok (Some v1)).
Proof. cbv zeta. intros. eapply gpr_training_derivs; first [eassumption|exact (fun _ _ => O)|exact (fun _ _ _ => O)|exact (fun _ => None)|exact (fun _ _ _ => 0)]. Qed.
Lemma C69_nlopt_lemma : forall la, linalg_ok la -> forall choose kernels means rest, plain_numerics rest ->
  forall gammaln restl named grad own sample key_precond interned kernel mean ko s0 os es s fs,
  kernels kernel = Some ko -> model_ok interned ko s0 -> calls_ok sample s0 os ->
  forall kp sigma l, gpr_init kernel mean kp sigma (OCall l) = Ok s0 ->
  let lml := c_gpr_lml la kernels means restl in let lossfn := library gammaln restl Dense lml named grad own in let C := GPR (gpr_numerics la choose kernels means rest) in
  Lifecycle.run lossfn sample key_precond interned C os (s0, fun _ => None) = (es, (s, fs)) ->
  forall lib, named (OCall l) = Some lib -> startable (s_params s0) -> (with_prior lib = true -> all_numbers (s_params s0)) -> loss_for TTargets lib ->
  forall mf x y m nf, means mean = Some mf -> shaped [m; nf] x -> shaped [m; 1%nat] y -> (0 < m)%nat ->
  forall w a strat, state_ok w -> same_frozen (s_params w) (s_params s0) -> trains a strat -> let score := total_score gammaln lib (gpr_score ko nf m mf x y) in
  exists s' s1 best v1, base_fit_nlopt lossfn sample C x y w a s = (Ok tt, s') /\ base_fit_nlopt lossfn sample C x y w (no_restarts a) s = (Ok tt, s1) /\
  trained a score (s_params s1) (s_params s') best /\ score s' best /\ score s1 v1 /\ v1 <= best /\
  (with_prior lib = false -> base_lml (lml_sig Dense TTargets) lml s' (Targets x y) false false = Ok (Some best) /\
                             base_lml (lml_sig Dense TTargets) lml s1 (Targets x y) false false = Ok (Some v1)).
Proof. cbv zeta. intros. eapply gpr_nlopt; first [eassumption|exact (fun _ _ => O)|exact (fun _ _ _ => O)|exact (fun _ => None)|exact (fun _ _ _ => 0)]. Qed.
Lemma C69_sgpr_nlopt_lemma : forall la, linalg_ok la -> forall kernels means rest, plain_numerics rest ->
  forall gammaln restl named grad own sample key_precond interned kernel mean ko s0 os es s fs,
  kernels kernel = Some ko -> model_ok interned ko s0 -> calls_ok sample s0 os ->
  forall x_locs jacobian_locs kp sigma l, sgpr_init kernel mean x_locs jacobian_locs kp sigma (OCall l) = Ok s0 ->
  let lml := c_sgpr_lml la kernels means restl in let lossfn := library gammaln restl Sparse lml named grad own in let C := SGPR (sgpr_numerics la kernels means rest) in
  Lifecycle.run lossfn sample key_precond interned C os (s0, fun _ => None) = (es, (s, fs)) ->
  forall lib, named (OCall l) = Some lib -> startable (s_params s0) -> (with_prior lib = true -> all_numbers (s_params s0)) -> loss_for TTargets lib ->
  forall mf x y m nf nl xl0, lookup ["x_locs"] (s_params s0) = Some (Some xl0) -> shaped [nl; nf] (p_value xl0) ->
  means mean = Some mf -> shaped [m; nf] x -> shaped [m; 1%nat] y -> (0 < m)%nat ->
  forall w a strat, state_ok w -> same_frozen (s_params w) (s_params s0) -> trains a strat -> let score := total_score gammaln lib (sgpr_score ko nf nl m mf x y) in
  exists s' s1 best v1, base_fit_nlopt lossfn sample C x y w a s = (Ok tt, s') /\ base_fit_nlopt lossfn sample C x y w (no_restarts a) s = (Ok tt, s1) /\
  trained a score (s_params s1) (s_params s') best /\ score s' best /\ score s1 v1 /\ v1 <= best /\
  (with_prior lib = false -> base_lml (lml_sig Sparse TTargets) lml s' (Targets x y) false false = Ok (Some best) /\
                             base_lml (lml_sig Sparse TTargets) lml s1 (Targets x y) false false = Ok (Some v1)).
Proof. cbv zeta. intros. eapply sgpr_training; first [eassumption|exact (fun _ _ => O)|exact (fun _ _ _ => O)|exact (fun _ => None)|exact (fun _ _ _ => 0)]. Qed.
Lemma C69_rpchol_nlopt_lemma : forall la, linalg_ok la -> forall kernels means rest keyed, plain_numerics rest ->
  forall gammaln restl named grad own sample key_precond interned kernel mean ko s0 os es s fs,
  kernels kernel = Some ko -> model_ok interned ko s0 -> calls_ok sample s0 os ->
  forall nl key kp sigma l, rpchol_init kernel mean (OInt (Z.of_nat nl)) (Some (OArr key)) kp sigma (OCall l) = Ok s0 -> plain key ->
  let lml := c_rp_lml la kernels means keyed restl in let lossfn := library gammaln restl Sparse lml named grad own in let C := SGPR_RPChol (rp_numerics la kernels means rest keyed) in
  Lifecycle.run lossfn sample key_precond interned C os (s0, fun _ => None) = (es, (s, fs)) ->
  forall lib, named (OCall l) = Some lib -> startable (s_params s0) -> (with_prior lib = true -> all_numbers (s_params s0)) -> loss_for TTargets lib ->
  forall mf x y m nf, means mean = Some mf -> shaped [m; nf] x -> shaped [m; 1%nat] y -> (0 < m)%nat -> (nl <= m)%nat ->
  forall w a strat, state_ok w -> same_frozen (s_params w) (s_params s0) -> trains a strat -> let score := total_score gammaln lib (rp_score ko (keyed (OArr key)) nf nl m mf x y) in
  exists s' s1 best v1, base_fit_nlopt lossfn sample C x y w a s = (Ok tt, s') /\ base_fit_nlopt lossfn sample C x y w (no_restarts a) s = (Ok tt, s1) /\
  trained a score (s_params s1) (s_params s') best /\ score s' best /\ score s1 v1 /\ v1 <= best /\
  (with_prior lib = false -> base_lml (lml_sig Sparse TTargets) lml s' (Targets x y) false false = Ok (Some best) /\
                             base_lml (lml_sig Sparse TTargets) lml s1 (Targets x y) false false = Ok (Some v1)).
Proof. cbv zeta. intros. eapply rp_training; first [eassumption|exact (fun _ _ => O)|exact (fun _ _ _ => O)|exact (fun _ => None)|exact (fun _ _ _ => 0)]. Qed.
