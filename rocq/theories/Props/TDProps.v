(** Properties of the joint model of targets and derivatives (models/gpr_td.py).
    Reference: td_obs, td_noise, obs_cov (Spec/TDSpec.v), mvn_pdf (Spec/MVN.v), linalg_ok (Model/LinAlg.v). *)
From Coq Require Import Reals Arith List.
From Coquelicot Require Import Coquelicot.
From Verif Require Import Base.Sums Base.Mat Base.PSD Model.Arrays Model.Kernels Model.LinAlg Model.Operations
  Model.RPCholesky Model.GPR Model.GPRTD Spec.KernelSpec Spec.SoftSpec Spec.Det Spec.MVN Spec.TDSpec
  Proofs.JetPSD Proofs.KernelPropLemmas Proofs.GPRExamples Proofs.GPRTDFit Proofs.GPRTDPack.
Open Scope R_scope.

(** the hypotheses on kernels hold of a sum of a Matern52 and a product of a linear and a periodic kernel,
    and the data sets of the examples have a non-empty second block *)
Example td_example : all_atoms (fun _ a => psd_atom a) gp_kernel /\ wf 3 gp_kernel /\ ls_nonzero gp_kernel
  /\ exact gp_kernel /\ dgram_ok gp_kernel.
Proof. exact gp_kernel_ok. Qed.
Example td_example_sizes : td_rows td_ex = 8%nat /\ td_rows td_ex1 = 9%nat /\ td_v2 td_ex = 2%nat.
Proof. exact ex_td_rows. Qed.

(** ** C50 *)
(** every entry is the covariance of the two observations, plus the noise of the row on the diagonal *)
Theorem C50_entries : forall nf k sg a b noise A r q, wf nf k -> ls_nonzero k -> exact k -> (noise = true -> a = b) ->
  (td_2 a = None <-> td_2 b = None) ->
  td_A_lhs nf k sg a b noise = Some A -> (r < td_rows a)%nat -> (q < td_rows b)%nat ->
  obs_cov nf k (td_obs a r) (td_obs b q) (A r q - if noise then td_noise sg a r * delta r q else 0).
Proof. exact td_entries. Qed.
Print Assumptions C50_entries.
Theorem C50_raises : forall nf k sg a b noise,
  td_A_lhs nf k sg a b noise = None <-> td_2 a <> None /\ td_2 b = None.
Proof. exact td_raises. Qed.
Print Assumptions C50_raises.
Theorem C50_positive_definite : forall nf k sg a A, all_atoms (fun _ a => psd_atom a) k -> wf nf k -> ls_nonzero k -> exact k ->
  td_A_lhs nf k sg a a true = Some A -> sym (td_rows a) A /\ pd (td_rows a) A.
Proof. exact td_sym_pd. Qed.
Print Assumptions C50_positive_definite.
(** sums and products that contain squared exponentials: the noise of the derivatives must exceed their slack,
    which is 5e-12 times the squared directions in units of the length scale (Spec/SoftSpec.v) *)
Theorem C50_positive_definite_soft : forall nf k sg a A, all_atoms (fun _ a => psd_atom a) k -> wf nf k -> ls_nonzero k -> soft k ->
  (forall r, (r < td_rows a)%nat -> snd (td_obs a r) <> None -> td_slack nf k a < td_noise sg a r) ->
  td_A_lhs nf k sg a a true = Some A -> sym (td_rows a) A /\ pd (td_rows a) A.
Proof. exact td_sym_pd_soft. Qed.
Print Assumptions C50_positive_definite_soft.
Theorem C50_matvec : forall nf k sg a b noise A z, wf nf k -> (noise = true -> a = b) -> (td_2 a = None <-> td_2 b = None) ->
  td_A_lhs nf k sg a b noise = Some A ->
  exists M, td_Ax_lhs_fun nf k sg a b noise z = Some M /\
  forall r j, (r < td_rows a)%nat -> M r j = mm (td_rows b) A z r j.
Proof. exact td_matvec. Qed.
Print Assumptions C50_matvec.
(** the pivoted Cholesky approximation behind the preconditioner *)
Theorem C50_rpcholesky : forall choose nf a np k K, all_atoms (fun _ a => psd_atom a) k ->
  wf nf k -> ls_nonzero k -> exact k -> (forall i p, (choose i p < td_rows a)%nat) ->
  forall sg, td_A_lhs nf k sg a a false = Some K ->
  let F := fst (rpcholesky_TD choose nf a np k) in
  let piv := snd (rpcholesky_TD choose nf a np k) in
  psd (td_rows a) (fun i j => K i j - gram np F i j) /\
  (forall l j, (l < np)%nat -> (j < td_rows a)%nat -> (piv l < td_rows a)%nat /\
     (K (piv l) j - gram np F (piv l) j) ^ 2 <= 2 * / 10 ^ 6 * sqrt (K (piv l) (piv l)) * K j j).
Proof. exact rpcholesky_TD_ok. Qed.
Print Assumptions C50_rpcholesky.
Example C50_example : forall sg, exists A, td_A_lhs 3 gp_kernel sg td_ex td_ex true = Some A.
Proof. exact ex_td_A. Qed.

Example C50_example_soft : all_atoms (fun _ a => psd_atom a) td_soft /\ wf 3 td_soft /\ ls_nonzero td_soft /\ soft td_soft /\
  forall r, (r < td_rows td_ex)%nat -> snd (td_obs td_ex r) <> None -> td_slack 3 td_soft td_ex < td_noise td_unit td_ex r.
Proof. exact ex_td_soft. Qed.

(** ** C51 *)
(** without a second block the dense likelihood is the log density per observation *)
Theorem C51_density : forall la, linalg_ok la -> forall nf k sg a, all_atoms (fun _ a => psd_atom a) k ->
  wf nf k -> ls_nonzero k -> exact k -> forall y yd mf C b, (0 < td_n a)%nat -> td_2 a = None ->
  td_cov nf k sg a C ->
  let r := td_targets a y yd None (mf (td_n a) 1%nat y) in
  veq (td_rows a) (mv (td_rows a) C b) r ->
  exists l, td_lml_dense la nf k sg a y yd None mf = Some l /\ INR (td_rows a) * l = ln (mvn_pdf (td_rows a) C r b).
Proof. exact td_lml_density. Qed.
Print Assumptions C51_density.
(** the matrix-free likelihood with an exact log-determinant is, with or without a second block *)
Theorem C51_iterative_density : forall la, linalg_ok la -> forall choose nf k sg a np, all_atoms (fun _ a => psd_atom a) k ->
  wf nf k -> ls_nonzero k -> exact k -> forall y yd yd2 mf C b logdet, (0 < td_n a)%nat -> sg_t sg <> 0 -> td_match a yd2 = true ->
  td_cov nf k sg a C -> logdet (td_rows a) = ln (det (td_rows a) C) ->
  let r := td_targets a y yd yd2 (mf (td_n a) 1%nat y) in
  veq (td_rows a) (mv (td_rows a) C b) r ->
  exists l, td_lml_iter la choose nf k sg a y yd yd2 mf np logdet = Some l /\
  INR (td_rows a) * l = ln (mvn_pdf (td_rows a) C r b).
Proof. exact td_lml_iter_density. Qed.
Print Assumptions C51_iterative_density.
(** with a second block the dense one counts the observations of the first two blocks only *)
Theorem C51_dense_value : forall la, linalg_ok la -> forall nf k sg a, all_atoms (fun _ a => psd_atom a) k ->
  wf nf k -> ls_nonzero k -> exact k -> forall y yd yd2 mf C b, (0 < td_n a)%nat -> td_match a yd2 = true ->
  td_cov nf k sg a C ->
  let r := td_targets a y yd yd2 (mf (td_n a) 1%nat y) in
  veq (td_rows a) (mv (td_rows a) C b) r ->
  exists l, td_lml_dense la nf k sg a y yd yd2 mf = Some l /\
  INR (td_n a + td_n a * td_v1 a) * l
  = ln (mvn_pdf (td_rows a) C r b) + INR (td_n a * td_v2 a) * / 2 * ln (2 * PI).
Proof. exact td_lml_second. Qed.
Print Assumptions C51_dense_value.
(** so that it differs from the matrix-free one, for every kernel and every set of points *)
Theorem C51_agreement_refuted : forall la, linalg_ok la -> forall choose nf k sg a np, all_atoms (fun _ a => psd_atom a) k ->
  wf nf k -> ls_nonzero k -> exact k -> forall mf C logdet, (0 < td_n a)%nat -> (0 < td_v2 a)%nat -> sg_t sg <> 0 ->
  mf (td_n a) 1%nat (fun _ _ => 0) = 0 ->
  td_cov nf k sg a C -> logdet (td_rows a) = ln (det (td_rows a) C) ->
  exists y yd yd2 l l', td_lml_dense la nf k sg a y yd (Some yd2) mf = Some l /\
    td_lml_iter la choose nf k sg a y yd (Some yd2) mf np logdet = Some l' /\ l <> l'.
Proof. exact td_lml_refuted. Qed.
Print Assumptions C51_agreement_refuted.
(** but both rank any two choices of hyperparameters alike *)
Theorem C51_same_order : forall la, linalg_ok la -> forall choose nf a np y yd yd2 mf logdet logdet', (0 < td_n a)%nat -> td_match a yd2 = true ->
  forall k sg k' sg' C C',
  all_atoms (fun _ a => psd_atom a) k -> wf nf k -> ls_nonzero k -> exact k -> sg_t sg <> 0 ->
  all_atoms (fun _ a => psd_atom a) k' -> wf nf k' -> ls_nonzero k' -> exact k' -> sg_t sg' <> 0 ->
  td_cov nf k sg a C -> logdet (td_rows a) = ln (det (td_rows a) C) ->
  td_cov nf k' sg' a C' -> logdet' (td_rows a) = ln (det (td_rows a) C') ->
  exists d d' i i', td_lml_dense la nf k sg a y yd yd2 mf = Some d /\ td_lml_dense la nf k' sg' a y yd yd2 mf = Some d' /\
    td_lml_iter la choose nf k sg a y yd yd2 mf np logdet = Some i /\
    td_lml_iter la choose nf k' sg' a y yd yd2 mf np logdet' = Some i' /\ (d <= d' <-> i <= i').
Proof. exact td_lml_same_order. Qed.
Print Assumptions C51_same_order.
(** any kernel, with the matrix the code builds, provided that it is positive definite (C50) *)
Theorem C51_definite : forall la, linalg_ok la -> forall nf k sg a y yd yd2 mf C b, wf nf k ->
  td_A_lhs nf k sg a a true = Some C -> sym (td_rows a) C -> pd (td_rows a) C -> (0 < td_n a)%nat -> td_match a yd2 = true ->
  let r := td_targets a y yd yd2 (mf (td_n a) 1%nat y) in
  veq (td_rows a) (mv (td_rows a) C b) r ->
  (exists l, td_lml_dense la nf k sg a y yd yd2 mf = Some l /\
   INR (td_n a + td_n a * td_v1 a) * l
   = ln (mvn_pdf (td_rows a) C r b) + INR (td_n a * td_v2 a) * / 2 * ln (2 * PI)) /\
  forall choose np logdet, sg_t sg <> 0 -> logdet (td_rows a) = ln (det (td_rows a) C) ->
  exists l, td_lml_iter la choose nf k sg a y yd yd2 mf np logdet = Some l /\ INR (td_rows a) * l = ln (mvn_pdf (td_rows a) C r b).
Proof. exact td_lml_definite. Qed.
Print Assumptions C51_definite.
Example C51_example_cov : forall sg, exists C, td_cov 3 gp_kernel sg td_ex C.
Proof. exact ex_td_cov. Qed.
Example C51_example : zero_mean (td_n td_ex) 1 (fun _ _ => 0) = 0 /\ data_mean (td_n td_ex) 1 (fun _ _ => 0) = 0.
Proof. exact ex_td_mean. Qed.

(** ** C58 *)
(** residuals at the training points *)
Theorem C58_residuals : forall la, linalg_ok la -> forall nf k sg a, all_atoms (fun _ a => psd_atom a) k ->
  wf nf k -> ls_nonzero k -> exact k -> forall y yd yd2 mf, td_match a yd2 = true ->
  exists c P, td_fit_dense la nf k sg a y yd yd2 mf = Some (c, mf (td_n a) 1%nat y) /\
    td_predict_dense nf k sg a a c (mf (td_n a) 1%nat y) = Some P /\
    (forall s, (s < td_n a)%nat -> y s O - tp_y P s O = (sg_t sg ^ 2 + / 10 ^ 10) * c s O) /\
    (forall s v, (s < td_n a)%nat -> (v < td_v1 a)%nat ->
       yd s v - tp_d P s v = (sg_1 sg ^ 2 + / 10 ^ 10) * c (td_n a + (s * td_v1 a + v))%nat O) /\
    (forall v2 J d, td_2 a = Some (v2, J) -> yd2 = Some d -> (0 < td_n a)%nat -> exists D, tp_d2 P = Some (v2, D) /\
       forall s v, (s < td_n a)%nat -> (v < v2)%nat ->
       d s v - D s v = (sg_2 sg ^ 2 + / 10 ^ 10) * c (td_n a + (td_n a * td_v1 a + (s * v2 + v)))%nat O).
Proof. exact td_residuals. Qed.
Print Assumptions C58_residuals.
(** the same, and agreement with the matrix-free fit, for any kernel that makes the matrix positive definite *)
Theorem C58_definite : forall la, linalg_ok la -> forall nf k sg a C, wf nf k ->
  td_A_lhs nf k sg a a true = Some C -> sym (td_rows a) C -> pd (td_rows a) C -> forall y yd yd2 mf, td_match a yd2 = true ->
  exists c P, td_fit_dense la nf k sg a y yd yd2 mf = Some (c, mf (td_n a) 1%nat y) /\
    (forall choose np, sg_t sg <> 0 -> exists c', td_fit_iter la choose nf k sg a y yd yd2 mf np = Some (c', mf (td_n a) 1%nat y) /\
       meq (td_rows a) 1 c' c) /\
    td_predict_dense nf k sg a a c (mf (td_n a) 1%nat y) = Some P /\
    (forall s, (s < td_n a)%nat -> y s O - tp_y P s O = (sg_t sg ^ 2 + / 10 ^ 10) * c s O) /\
    (forall s v, (s < td_n a)%nat -> (v < td_v1 a)%nat ->
       yd s v - tp_d P s v = (sg_1 sg ^ 2 + / 10 ^ 10) * c (td_n a + (s * td_v1 a + v))%nat O) /\
    (forall v2 J d, td_2 a = Some (v2, J) -> yd2 = Some d -> (0 < td_n a)%nat -> exists D, tp_d2 P = Some (v2, D) /\
       forall s v, (s < td_n a)%nat -> (v < v2)%nat ->
       d s v - D s v = (sg_2 sg ^ 2 + / 10 ^ 10) * c (td_n a + (td_n a * td_v1 a + (s * v2 + v)))%nat O).
Proof. exact td_fit_definite. Qed.
Print Assumptions C58_definite.
(** the outputs at new points, for any numbers g that are the covariances *)
Theorem C58_predictions : forall nf k sg a b c mu (g : Mat), wf nf k -> ls_nonzero k -> exact k ->
  (td_2 a = None <-> td_2 b = None) ->
  (forall q r, (q < td_rows a)%nat -> (r < td_rows b)%nat -> obs_cov nf k (td_obs a q) (td_obs b r) (g q r)) ->
  exists P, td_predict_dense nf k sg a b c mu = Some P /\
    (forall t, (t < td_n b)%nat -> tp_y P t O = mu + sum (td_rows a) (fun q => g q t * c q O)) /\
    (forall t u, (t < td_n b)%nat -> (u < td_v1 b)%nat ->
       tp_d P t u = sum (td_rows a) (fun q => g q (td_n b + (t * td_v1 b + u))%nat * c q O)) /\
    (forall v2 J, td_2 b = Some (v2, J) -> (0 < td_n b)%nat -> exists D, tp_d2 P = Some (v2, D) /\
       forall t u, (t < td_n b)%nat -> (u < v2)%nat ->
       D t u = sum (td_rows a) (fun q => g q (td_n b + (td_n b * td_v1 b + (t * v2 + u)))%nat * c q O)).
Proof. exact td_predict_values. Qed.
Print Assumptions C58_predictions.
(** the derivative outputs are the derivatives of the value output: Y z are the predicted values when the new
    points move along G, whose velocity at t0 is a column of the jacobian *)
Theorem C58_derivatives : forall nf k sg a b c mu (G : R -> Mat) t0, wf nf k -> ls_nonzero k -> exact k ->
  (td_2 a = None <-> td_2 b = None) ->
  let at_ X := {| td_n := td_n b; td_x := X; td_v1 := td_v1 b; td_j1 := td_j1 b; td_2 := td_2 b |} in
  exists Y P, (forall z, exists Q, td_predict_dense nf k sg a (at_ (G z)) c mu = Some Q /\
      forall t, (t < td_n b)%nat -> tp_y Q t O = Y z t) /\
    td_predict_dense nf k sg a (at_ (G t0)) c mu = Some P /\
    (forall t u, (t < td_n b)%nat -> (u < td_v1 b)%nat ->
       (forall f, (f < nf)%nat -> is_derive (fun z => G z t f) t0 (td_j1 b t f u)) ->
       is_derive (fun z => Y z t) t0 (tp_d P t u)) /\
    (forall v2 J, td_2 b = Some (v2, J) -> (0 < td_n b)%nat -> exists D, tp_d2 P = Some (v2, D) /\
       forall t u, (t < td_n b)%nat -> (u < v2)%nat ->
       (forall f, (f < nf)%nat -> is_derive (fun z => G z t f) t0 (J t f u)) ->
       is_derive (fun z => Y z t) t0 (D t u)).
Proof. exact td_predict_curve. Qed.
Print Assumptions C58_derivatives.
(** the matrix-free fit and prediction agree with the dense ones *)
Theorem C58_iterative_fit : forall la, linalg_ok la -> forall nf k sg a, all_atoms (fun _ a => psd_atom a) k ->
  wf nf k -> ls_nonzero k -> exact k -> forall y yd yd2 mf choose np, sg_t sg <> 0 ->
  match td_fit_iter la choose nf k sg a y yd yd2 mf np, td_fit_dense la nf k sg a y yd yd2 mf with
  | Some (c, m), Some (c', m') => meq (td_rows a) 1 c c' /\ m = m'
  | None, None => True
  | _, _ => False
  end.
Proof. exact td_iter_fit. Qed.
Print Assumptions C58_iterative_fit.
Theorem C58_iterative_predictions : forall nf k sg a b c mu, wf nf k -> ls_nonzero k ->
  (forall s t, (s < td_n a)%nat -> (t < td_n b)%nat -> all_atoms (fun ad at' => regular_pair nf ad at' (td_x a s) (td_x b t)) k) ->
  (td_2 a = None <-> td_2 b = None) ->
  exists A B, td_predict_dense nf k sg a b c mu = Some A /\ td_predict_iter nf k sg a b c mu = Some B /\
  (forall t, (t < td_n b)%nat -> tp_y A t O = tp_y B t O) /\
  (forall t u, (t < td_n b)%nat -> (u < td_v1 b)%nat -> tp_d A t u = tp_d B t u) /\
  match tp_d2 A, tp_d2 B with
  | Some (w, D), Some (w', D') => w = w' /\ ((0 < td_n b)%nat -> meq (td_n b) w D D')
  | None, None => True | _, _ => False end.
Proof. exact td_predict_iter_eq. Qed.
Print Assumptions C58_iterative_predictions.
Example C58_example : exists A B, td_match td_ex (Some A) = true /\ td_match td_ex1 B = true /\ (td_2 td_ex = None <-> td_2 td_ex = None).
Proof. exact ex_td_match. Qed.

(** ** C59 *)
(** Claim: dense and matrix-free prediction accept the same inputs, and a call that does not raise returns the
    requested derivatives. Refuted when jacobian_2 is given on one side only. *)
Theorem C59_training_only_refuted : forall nf k sg a b c mu v2 J, wf nf k -> ls_nonzero k ->
  (forall s t, (s < td_n a)%nat -> (t < td_n b)%nat -> all_atoms (fun ad at' => regular_pair nf ad at' (td_x a s) (td_x b t)) k) ->
  td_2 a = Some (v2, J) -> td_2 b = None ->
  td_predict_dense nf k sg a b c mu = None /\ exists P, td_predict_iter nf k sg a b c mu = Some P.
Proof. exact td_mismatch_raise. Qed.
Print Assumptions C59_training_only_refuted.
Theorem C59_prediction_only_refuted : forall nf k sg a b c mu v2 J, wf nf k -> td_2 a = None -> td_2 b = Some (v2, J) -> (0 < td_n b)%nat ->
  (exists P D, td_predict_dense nf k sg a b c mu = Some P /\ tp_d2 P = Some (0%nat, D)) /\
  td_predict_iter nf k sg a b c mu = None.
Proof. exact td_mismatch_silent. Qed.
Print Assumptions C59_prediction_only_refuted.
Example C59_example : (exists v2 J, td_2 td_ex = Some (v2, J)) /\ td_2 td_ex1 = None /\ (0 < td_n td_ex)%nat.
Proof. exact ex_td_mixed. Qed.
