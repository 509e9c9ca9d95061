(** Property C65: what is drawn from a prior follows the density that logpdf states. Also the slope of
    the bijectors (C22) and Parameter.sample_prior (C07). *)
From Coq Require Import Reals List Lra.
From Verif Require Import Model.PyDict Model.Bijectors Model.Priors Model.Params Model.State Model.PriorDraw
  Spec.BijectorSpec Spec.PriorSpec Spec.RandomSpec Spec.PriorDrawSpec
  Proofs.StateExamples Proofs.PriorDrawFacts Proofs.PriorDrawExamples.
Import ListNotations.
Open Scope R_scope.

(** ** C65 *)
(** prior.sample has the density exp (prior.logpdf), when the generator has the standard one *)
Theorem C65_draws : forall (gammaln Gam : R -> R) p P, (forall z, 0 < z -> exp (gammaln z) = Gam z) -> standard_law Gam p P ->
  forall t, prior_dom p t -> density_at (image (draw p) P) t (exp (logpdf gammaln p t)).
Proof. exact drawn_law. Qed.
Print Assumptions C65_draws.
(** every entry of prior.sample, when the generator is asked for normal or gamma numbers and gives them *)
Theorem C65_sample : forall (gammaln Gam : R -> R) (W : Type) (Q : (W -> Prop) -> R) (src : W -> source) k pr i,
  (forall z, 0 < z -> exp (gammaln z) = Gam z) -> (forall A B : W -> Prop, (forall o, A o <-> B o) -> Q A = Q B) ->
  (forall o, source_ok (src o)) -> (forall o, (i < length (a_data (asked (src o) k pr)))%nat) ->
  standard_law Gam (pr_dist pr) (over Q (fun o => entry_of (asked (src o) k pr) i)) ->
  forall t, prior_dom (pr_dist pr) t ->
  density_at (over Q (fun o => entry_of (prior_sample (src o) k pr) i)) t (exp (logpdf gammaln (pr_dist pr) t)).
Proof. exact sampled_law. Qed.
Print Assumptions C65_sample.
Example C65_sample_case : forall Gam k, (forall A B : R -> Prop, (forall o, A o <-> B o) -> normal_law A = normal_law B) /\
  (forall z, source_ok (one_source z)) /\ (forall z, (0 < length (a_data (asked (one_source z) k (PriorObj [] F64 (NormalPrior 1 2)))))%nat) /\
  standard_law Gam (NormalPrior 1 2) (over normal_law (fun z => entry_of (asked (one_source z) k (PriorObj [] F64 (NormalPrior 1 2))) 0)).
Proof.
  intros Gam k. split; [exact (proj1 (normal_law_ok Gam 1 2))|]. split; [exact one_source_ok|]. split; [intros; cbn; auto|exact (one_source_law Gam k 1 2)].
Qed.
(** randomised values: the prior is the density of the value before the bijector *)
Theorem C65_randomized : forall (gammaln Gam : R -> R) p P b, (forall z, 0 < z -> exp (gammaln z) = Gam z) -> standard_law Gam p P -> bij_ok b ->
  forall x, prior_dom p x -> density_at (image (fun z => forward b (draw p z)) P) (forward b x) (exp (logpdf gammaln p x) / slope b x).
Proof. exact randomized_law. Qed.
Print Assumptions C65_randomized.
Theorem C65_identity : forall (gammaln Gam : R -> R) p P, (forall z, 0 < z -> exp (gammaln z) = Gam z) -> standard_law Gam p P ->
  forall y, prior_dom p y -> density_at (image (fun z => forward Identity (draw p z)) P) y (exp (logpdf gammaln p y)).
Proof. exact identity_law. Qed.
Print Assumptions C65_identity.
(** but log_prior takes the prior as the density of the value itself: the two disagree *)
Theorem C65_value_refuted : forall (gammaln Gam : R -> R) P, standard_law Gam (NormalPrior 0 1) P ->
  0 < forward Softplus 0 /\
  ~ density_at (image (fun z => forward Softplus (draw (NormalPrior 0 1) z)) P) (forward Softplus 0)
      (exp (logpdf gammaln (NormalPrior 0 1) (forward Softplus 0))).
Proof. exact softplus_law. Qed.
Print Assumptions C65_value_refuted.
(** arrays: what randomize assumes of a prior holds, and gamma priors give positive numbers *)
Theorem C65_sampler : forall src, source_ok src -> sampler_ok (prior_sample src).
Proof. exact prior_sample_ok. Qed.
Print Assumptions C65_sampler.
Theorem C65_gamma_positive : forall src k pr a b, pr_dist pr = GammaPrior a b -> 0 < b ->
  (forall x, In (Some x) (a_data (r_gamma src k a (pr_shape pr) (pr_dtype pr))) -> 0 < x) ->
  forall y, In (Some y) (a_data (prior_sample src k pr)) -> 0 < y.
Proof. exact gamma_positive. Qed.
Print Assumptions C65_gamma_positive.
Example C65_example : (forall Gam l s, standard_law Gam (NormalPrior l s) normal_law) /\ prior_dom (NormalPrior 1 2) 5 /\
  (forall b, standard_law (fun _ => 1) (GammaPrior 1 b) exponential_law) /\ prior_dom (GammaPrior 1 3) 2 /\
  (forall z : R, 0 < z -> exp ((fun _ => 0) z) = (fun _ => 1) z) /\ source_ok ex_source.
Proof.
  split; [exact normal_law_ok|]. split; [cbn; lra|]. split; [exact exponential_law_ok|]. split; [cbn; lra|]. split; [intros; apply exp_0|exact ex_source_ok].
Qed.

(** ** C22 *)
Theorem C22_slope : forall b x, bij_ok b -> derivable_pt_lim (forward b) x (slope b x) /\ 0 < slope b x.
Proof. exact forward_slope. Qed.
Print Assumptions C22_slope.
Example C22_slope_case : bij_ok (SoftMinMax 0 3).
Proof. cbn. lra. Qed.

(** ** C07 *)
(** Parameter.sample_prior: the bijector of a draw, everything else unchanged *)
Theorem C07_parameter : forall sample k p, sampler_ok sample -> float_meta (p_meta p) -> bij_ok (m_bijector (p_meta p)) ->
  let v := forward_arr (m_bijector (p_meta p)) (sample k (m_prior (p_meta p))) in
  sample_prior (sample k) p = Ok (Param v (p_meta p)) /\ legal (m_bijector (p_meta p)) v.
Proof. exact sample_prior_spec. Qed.
Print Assumptions C07_parameter.
Example C07_parameter_case : sampler_ok (prior_sample ex_source) /\ float_meta (Meta true Softplus (PriorObj [] F64 (GammaPrior 1 1))).
Proof. split; [exact (prior_sample_ok _ ex_source_ok)|reflexivity]. Qed.
