(** C49, shapes: which sizes are accepted and what comes back. m training or inducing points, n points to predict, f
    features, v derivatives per training or inducing point, d per point to predict, o outputs. *)
From Coq Require Import Arith List Bool.
From Verif Require Import Base.Mat Model.PyDict Model.State Model.LinAlg Model.Sampling Model.Shapes Proofs.ShapeFacts.
Import ListNotations.
Local Open Scope nat_scope.

(** C49: GPR on values, with two- and one-dimensional targets *)
Theorem C49_gpr : forall m n f o,
  g_fit_dense [m; f] [m; o] = Some [m; o] /\ g_predict [m; f] [n; f] [m; o] = Some [n; o] /\
  g_fit_dense [m; f] [m] = Some [m] /\ g_predict [m; f] [n; f] [m] = Some [n] /\
  g_predict_cov [m; f] [n; f] = Some [n; n] /\ g_lml [m; f] [m; o] = Some [].
Proof. exact gpr_values. Qed.
Print Assumptions C49_gpr.
Theorem C49_gpr_mismatch : forall m f p o, p <> m -> g_fit_dense [m; f] [p; o] = None /\ g_lml [m; f] [p; o] = None.
Proof. exact gpr_wrong. Qed.
Print Assumptions C49_gpr_mismatch.
(** C49: GPR on derivatives; with the covariance the mean comes back flat *)
Theorem C49_gpr_derivs : forall m n f v d,
  g_fit_derivs [m; f] [m; v] [m; f; v] = Some ([m * v; 1], [m; f]) /\
  g_predict_derivs [m; f] [m; f; v] [n; f] [n; f; d] [m * v; 1] = Some [n; d] /\
  g_predict_derivs_jc [m; f] [n; f] [n; f; d] [m; f] = Some [n; d] /\
  g_predict_derivs_cov [m; f] [m; f; v] [n; f] [n; f; d] [m * v; 1] = Some ([n * d; 1], [n * d; n * d]) /\
  g_predict_y_derivs_jc [m; f] [n; f] [m * v; 1] [m; f] = Some [n; 1] /\
  g_predict_y_derivs_cov [m; f] [m; f; v] [n; f] [m * v; 1] = Some ([n; 1], [n; n]) /\
  g_lml_derivs [m; f] [m; f; v] [m; v] = Some [].
Proof. exact gpr_derivs. Qed.
Print Assumptions C49_gpr_derivs.
(** C49 (refutation): derivatives of several outputs are not supported *)
Theorem C49_derivative_outputs_refuted : forall m f v o, g_fit_derivs [m; f] [m; v; o] [m; f; v] = None <-> o <> 1 /\ m * v <> 0.
Proof. exact gpr_derivs_outputs. Qed.
Print Assumptions C49_derivative_outputs_refuted.
(** C49: operator learning *)
Theorem C49_operator_learning : forall m f v, ol_solve [m; f] [m; 1] [m; v] [m; f; v] = Some [m; 1].
Proof. exact ol_shape. Qed.
Print Assumptions C49_operator_learning.
(** C49 (refutation): its covariance exists for one derivative per point only; for a single point with d derivatives it has
    the shape (d, d) *)
Theorem C49_operator_learning_covariance_refuted : forall m n f d,
  g_predict_ol [m; f] [n; f] [n; f; d] [m; 1] = Some ([n; 1], [n * d; 1]) /\
  g_predict_ol_cov [m; f] [n; f] [n; f; d] [m; 1]
  = (if d =? 1 then Some ([n; 1], [n; n]) else if n =? 1 then Some ([1; 1], [d; d]) else if n =? 0 then Some ([0; 1], [0; 0]) else None).
Proof. exact ol_predict. Qed.
Print Assumptions C49_operator_learning_covariance_refuted.
(** C49: mse_loss wants three-dimensional derivatives; fit_ol (above) takes two-dimensional ones *)
Theorem C49_mse : forall m f a b, 0 < b -> g_mse [m; f] [m; 1] [m; f; a * b] [m; a; b] = Some [] /\
  forall v, g_mse [m; f] [m; 1] [m; f; v] [m; v] = None.
Proof. exact mse_shape. Qed.
Print Assumptions C49_mse.
(** C49: SGPR *)
Theorem C49_sgpr : forall m n f o,
  s_fit_dense [m; f] [n; f] [n; o] = Some [m; o] /\ s_predict [m; f] [n; f] [m; o] = Some [n; o] /\
  s_predict_cov [m; f] [n; f] = Some [n; n] /\ s_lml [m; f] [n; f] [n; o] = Some [].
Proof. exact sgpr_values. Qed.
Print Assumptions C49_sgpr.
Theorem C49_sgpr_derivs : forall m n f v d,
  s_fit_derivs [m; f] [m; f; v] [n; f] [n; d] [n; f; d] = Some ([m * v; 1], [m; f]) /\
  s_predict_derivs [m; f] [m; f; v] [n; f] [n; f; d] [m * v; 1] = Some [n; d].
Proof. exact sgpr_derivs. Qed.
Print Assumptions C49_sgpr_derivs.
(** C49 (refutation): covariances of SGPR models trained on derivatives raise for two or more inducing points with several
    derivatives *)
Theorem C49_sgpr_derivative_covariance_refuted : forall m n f v d,
  s_predict_derivs_cov [m; f] [m; f; v] [n; f] [n; f; d] [m * v; 1]
  = if (m <=? 1) || (v =? 1) then Some ([n; d], [n * d; n * d]) else None.
Proof. exact sgpr_cov_derivs. Qed.
Print Assumptions C49_sgpr_derivative_covariance_refuted.
Theorem C49_sgpr_value_covariance_refuted : forall m n f v,
  s_predict_y_derivs_cov [m; f] [m; f; v] [n; f] [m * v; 1] = if (m <=? 1) || (v =? 1) then Some ([n; 1], [n; n]) else None.
Proof. exact sgpr_cov_y_derivs. Qed.
Print Assumptions C49_sgpr_value_covariance_refuted.
(** C49 (refutation): so does the dense likelihood of derivatives, and when the targets have several derivatives; flat
    targets pass that second test *)
Theorem C49_sgpr_derivative_likelihood_refuted : forall m n f v d,
  (s_lml_derivs [m; f] [m; f; v] [n; f] [n; d] [n; f; d] = Some [] <-> (m <= 1 \/ v = 1) /\ (n = 0 \/ d = 1)) /\
  (s_lml_derivs [m; f] [m; f; v] [n; f] [n * d; 1] [n; f; d] = Some [] <-> m <= 1 \/ v = 1).
Proof. exact sgpr_lml_derivs. Qed.
Print Assumptions C49_sgpr_derivative_likelihood_refuted.
(** C49: the iterative likelihood of derivatives wants as many derivatives at the inducing points as at the data *)
Theorem C49_sgpr_iterative_likelihood : forall m n f v d,
  s_Hx_derivs_row [m; f] [m; f; v] [n; f] [n; f; d] = Some [v; n * v] <-> n = 0 \/ v = d.
Proof. exact sgpr_row. Qed.
Print Assumptions C49_sgpr_iterative_likelihood.
(** C49 (refutation): even when that covariance exists, samples of the derivatives cannot be drawn from it *)
Theorem C49_sgpr_derivative_sampling_refuted : forall m n f v d mu cov, 0 < n -> 1 < d ->
  s_predict_derivs_cov [m; f] [m; f; v] [n; f] [n; f; d] [m * v; 1] = Some (mu, cov) ->
  mu = [n; d] /\ cov = [n * d; n * d] /\
  forall la normal k (M C : Mat) s, sample la normal k (Mean2 n d M) (add_jitter (Cov (n * d) C)) s = Err ValueError.
Proof. exact sgpr_sampling. Qed.
Print Assumptions C49_sgpr_derivative_sampling_refuted.
Example C49_sampling_example :
  s_predict_derivs_cov [4; 3] [4; 3; 1] [5; 3] [5; 3; 2] [4; 1] = Some ([5; 2], [10; 10]).
Proof. reflexivity. Qed.
