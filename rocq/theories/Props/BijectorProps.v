(** Properties C20-C23: bijectors and priors. *)
From Coq Require Import Reals Lra List Permutation.
From Verif Require Import Model.Bijectors Spec.BijectorSpec Model.Priors Spec.PriorSpec
  Proofs.BijectorLemmas Proofs.PriorLemmas.
Import ListNotations.
Open Scope R_scope.

(** ** C20 *)
Theorem C20_range : forall b x, bij_ok b -> in_range b (forward b x).
Proof. exact forward_range. Qed.
Print Assumptions C20_range.
Theorem C20_onto : forall b y, bij_ok b -> inside (/ 10 ^ 300) b y -> exists x, forward b x = y.
Proof. exact forward_onto. Qed.
Print Assumptions C20_onto.
Example C20_example : bij_ok (SoftMinMax (-1) 3) /\ inside (/ 10 ^ 300) (SoftMinMax (-1) 3) 2.
Proof. change (/ 10 ^ 300) with eps300. pose proof eps_small. cbn -[eps300]. lra. Qed.

(** ** C21 *)
Theorem C21_forward_backward : forall b y, bij_ok b -> backward_dom b y ->
  exists x, backward b y = Some x /\ Rabs (forward b x - y) <= / 10 ^ 300.
Proof. exact forward_backward. Qed.
Print Assumptions C21_forward_backward.
Theorem C21_backward_forward : forall b x, bij_ok b ->
  match b with SoftMinMax _ _ => round_err b x <= 1 | _ => True end ->
  exists x', backward b (forward b x) = Some x' /\ Rabs (x' - x) <= round_err b x.
Proof. exact backward_forward. Qed.
Print Assumptions C21_backward_forward.
Theorem C21_softplus_one_sided : forall x, exists x', backward Softplus (forward Softplus x) = Some x' /\
  x <= x' <= x + / 10 ^ 300 * (1 + exp (- x)).
Proof. exact sp_round. Qed.
Print Assumptions C21_softplus_one_sided.
(** Values of the range that backward maps to NaN: the last 1e-300 (max-min)/softplus(max-min)
    above min. *)
Theorem C21_minmax_edge_refuted : forall m M y, m < M -> m < y ->
  y <= m + / 10 ^ 300 * ((M - m) / softplus (M - m)) ->
  in_range (SoftMinMax m M) y -> backward (SoftMinMax m M) y = None.
Proof. intros m M y H1 H2 H3 _. exact (backward_smm_none m M y H1 H2 H3). Qed.
Print Assumptions C21_minmax_edge_refuted.
Example C21_example : backward_dom (SoftMinMax (-1) 3) 2 /\ backward_dom (SoftMin 2) 5
  /\ round_err (SoftMinMax 0 8) 1 <= 1.
Proof.
  unfold backward_dom, in_range. change (/ 10 ^ 300) with eps300. pose proof eps_small. pose proof eps_pos.
  split; [cbn -[eps300]; lra|]. split; [cbn -[eps300]; lra|].
  unfold round_err. change (/ 10 ^ 300) with eps300.
  assert (S : softplus (1 - 0) - (8 - 0) <= 0).
  { rewrite softplus_eq. pose proof (sp0_lip (1 - 0) (1 - 0) ltac:(lra)) as L.
    replace (1 - 0 - (1 - 0)) with 0 in L by ring. unfold sp0 in L at 2. rewrite exp_0 in L.
    assert (ln (1 + 1) <= 1 + 1 - 1) by (apply ln_le_sub; lra). lra. }
  assert (E1 : exp (softplus (1 - 0) - (8 - 0)) <= 1) 
    by (apply Rle_trans with (exp 0); [apply exp_le; lra|rewrite exp_0; lra]).
  assert (E2 : exp (- (1 - 0)) <= 1) 
    by (apply Rle_trans with (exp 0); [apply exp_le; lra|rewrite exp_0; lra]).
  pose proof (exp_pos (softplus (1 - 0) - (8 - 0))). pose proof (exp_pos (- (1 - 0))).
  assert (exp (softplus (1 - 0) - (8 - 0)) * (1 + exp (- (1 - 0))) <= 1 * 2)
    by (apply Rmult_le_compat; lra).
  rewrite Rmult_assoc.
  assert (eps300 * (exp (softplus (1 - 0) - (8 - 0)) * (1 + exp (- (1 - 0)))) <= eps300 * (1 * 2))
    by (apply Rmult_le_compat_l; lra). lra.
Qed.

(** ** C22 *)
Theorem C22_forward_increasing : forall b x y, bij_ok b -> x < y -> forward b x < forward b y.
Proof. exact forward_incr. Qed.
Print Assumptions C22_forward_increasing.
Theorem C22_backward_increasing : forall b y z, bij_ok b -> backward_dom b y -> backward_dom b z ->
  y < z -> exists u v, backward b y = Some u /\ backward b z = Some v /\ u < v.
Proof. exact backward_incr. Qed.
Print Assumptions C22_backward_increasing.
Example C22_example : backward_dom (SoftMax 3) 1 /\ backward_dom (SoftMax 3) 2 /\ 1 < 2.
Proof. unfold backward_dom, in_range. cbn -[pow]. lra. Qed.

(** ** C23 *)
Theorem C23_density : forall (gammaln Gam : R -> R) p x,
  (forall z, 0 < z -> exp (gammaln z) = Gam z) -> prior_dom p x ->
  exp (logpdf gammaln p x) = pdf Gam p x.
Proof. exact logpdf_exp. Qed.
Print Assumptions C23_density.
Theorem C23_log_prior_joint : forall (gammaln Gam : R -> R) ps,
  (forall z, 0 < z -> exp (gammaln z) = Gam z) ->
  Forall (fun q => prior_dom (fst q) (snd q)) ps ->
  exists r, log_prior gammaln (leaves ps) = Some (Scal r) /\ exp r = joint Gam ps.
Proof. exact log_prior_joint. Qed.
Print Assumptions C23_log_prior_joint.
Theorem C23_order_irrelevant : forall gammaln ps qs, Permutation ps qs ->
  log_prior gammaln (leaves ps) = log_prior gammaln (leaves qs).
Proof. exact log_prior_perm. Qed.
Print Assumptions C23_order_irrelevant.
Theorem C23_log_posterior : forall (gammaln Gam : R -> R) lml ps,
  (forall z, 0 < z -> exp (gammaln z) = Gam z) ->
  Forall (fun q => prior_dom (fst q) (snd q)) ps ->
  exists r, log_posterior gammaln lml (leaves ps) = Some (Scal r) /\ exp r = exp lml * joint Gam ps.
Proof. exact log_post_joint. Qed.
Print Assumptions C23_log_posterior.
(** Array-valued parameters: the log prior is an array of logpdf values, not their sum. *)
Theorem C23_array_value_refuted : forall gammaln p v,
  log_prior gammaln [PLeaf (Vect v) p] = Some (Vect (map (logpdf gammaln p) v)).
Proof. exact log_prior_vec. Qed.
Print Assumptions C23_array_value_refuted.
Theorem C23_two_arrays_error : forall gammaln p q v w,
  length v <> length w -> (2 <= length v)%nat -> (2 <= length w)%nat ->
  log_prior gammaln [PLeaf (Vect v) p; PLeaf (Vect w) q] = None.
Proof. exact log_prior_err. Qed.
Print Assumptions C23_two_arrays_error.
Example C23_example : Forall (fun q => prior_dom (fst q) (snd q)) [(NormalPrior 0 2, 5); (GammaPrior 2 3, 1)]
  /\ (forall z, 0 < z -> exp ((fun _ : R => 0) z) = (fun _ : R => 1) z).
Proof.
  split; [repeat constructor; simpl; lra|]. intros. apply exp_0.
Qed.
