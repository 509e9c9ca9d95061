{
 "claims": [
  {
   "property": "C01",
   "status": "proved",
   "theorems": [
    "C01_flatten_unflatten",
    "C01_colon_refuted",
    "C01_identity_refuted",
    "C01_null_refuted"
   ],
   "note": "Names non-empty, no ':', leaf not 'NULL', a leaf name cached by the interpreter not equal to an ancestor's; each side condition refuted when dropped."
  },
  {
   "property": "C02",
   "status": "proved",
   "theorems": [
    "C02_save_load",
    "C02_failed_save",
    "C02_suffix_refuted",
    "C02_none_refuted",
    "C02_string_refuted",
    "C02_bool_array_refuted",
    "C02_file_attribute_refuted"
   ],
   "note": "Parameters by path, attributes by name, other files untouched. Refuted: load without the .npz suffix, None parameters, strings, 0-d bool arrays, an attribute called 'file'."
  },
  {
   "property": "C03",
   "status": "proved",
   "theorems": [
    "C03_accepted",
    "C03_no_params",
    "C03_count",
    "C03_misfit",
    "C03_names_ignored",
    "C03_names_refuted"
   ],
   "note": "Names are not checked: proved (names_ignored) and refuted by a witness."
  },
  {
   "property": "C04",
   "status": "proved",
   "theorems": [
    "C04_fields",
    "C04_succeeds",
    "C04_compose",
    "C04_copy",
    "C04_caller_dict",
    "C04_twice_refuted",
    "C04_parameter",
    "C04_parameter_caller_dict"
   ],
   "note": "Frame, last-write-wins composition, error cases, and what is left of the caller's dictionary, for states and parameters."
  },
  {
   "property": "C05",
   "status": "proved",
   "theorems": [
    "C05_constructor",
    "C05_parameter_history",
    "C05_state_history"
   ],
   "note": "Invariant over all histories of parameter and state operations; an exception leaves the variable as it was."
  },
  {
   "property": "C06",
   "status": "proved",
   "theorems": [
    "C06_roundtrip",
    "C06_replace",
    "C06_reject"
   ],
   "note": "Only parameter values are leaves; registered arrays are static data."
  },
  {
   "property": "C07",
   "status": "proved",
   "theorems": [
    "C07_parameter",
    "C07_randomize",
    "C07_forgets"
   ],
   "note": "prior.sample is an argument with assumed shape, dtype and finite entries."
  },
  {
   "property": "C08",
   "status": "proved",
   "theorems": [
    "C08_restart_keys_refuted",
    "C08_restart_draws_refuted",
    "C08_keys_distinct",
    "C08_keys",
    "C08_draws"
   ],
   "note": "Keys as the free algebra of split/fold. Across restarts the independence is refuted: keys and, for equal priors and bijectors, drawn values coincide."
  },
  {
   "property": "C09",
   "status": "proved",
   "theorems": [
    "C09_vector_length",
    "C09_unravel_succeeds",
    "C09_wrong_length",
    "C09_unravel",
    "C09_ravel_unravel",
    "C09_unravel_ravel"
   ],
   "note": "All trees and shapes. ravel after unravel within the inversion error of each bijector."
  },
  {
   "property": "C10",
   "status": "proved",
   "theorems": [
    "C10_visited_states",
    "C10_legal",
    "C10_objective"
   ],
   "note": "Optimiser = any adaptive strategy (ask points, see the loss, stop), including raising losses."
  },
  {
   "property": "C11",
   "status": "proved",
   "theorems": [
    "C11_best_state",
    "C11_key_needed",
    "C11_succeeds"
   ],
   "note": "All three randomized_minimization variants share the modelled loop; the minimiser and the loss are arguments."
  },
  {
   "property": "C12",
   "status": "proved",
   "theorems": [
    "C12_result",
    "C12_same_as_scipy",
    "C12_frozen_refuted"
   ],
   "note": "Refuted for states that differ in a frozen value."
  },
  {
   "property": "C13",
   "status": "proved",
   "theorems": [
    "C13_best_trial",
    "C13_no_finite_cost",
    "C13_local_search",
    "C13_local_search_range",
    "C13_range_refuted"
   ],
   "note": "The swarm library is an argument (any strategy). Range claim refuted without a local optimiser."
  },
  {
   "property": "C14",
   "status": "proved",
   "theorems": [
    "C14_visited_states",
    "C14_frozen",
    "C14_frozen_close",
    "C14_succeeds",
    "C14_steps",
    "C14_validation",
    "C14_history",
    "C14_validation_free",
    "C14_one_sided",
    "C14_run_succeeds",
    "C14_update_every",
    "C14_best_refuted",
    "C14_weight_decay_refuted"
   ],
   "note": "Optimiser = any function from the gradient history to updates; the gradient is any function of the state and data. Frozen values with weight decay refuted; that the best state is returned refuted. The printed progress is not modelled, only the modulo that can raise."
  },
  {
   "property": "C15",
   "status": "proved",
   "theorems": [
    "C15_gpr",
    "C15_sgpr",
    "C15_sgpr_rpchol",
    "C15_saved_gpr",
    "C15_saved_sgpr",
    "C15_saved_rpchol",
    "C15_guard_refuted",
    "C15_failed_call_refuted",
    "C15_history_refuted"
   ],
   "note": "Numerics, losses and the prior's sampler are arguments. Histories of any length over fit, fit_derivs, fit_ol, fit_nlopt, randomize, save, load, init. Failed calls leaving the model unchanged is refuted."
  },
  {
   "property": "C16",
   "status": "proved",
   "theorems": [
    "C16_fresh",
    "C16_fresh_sgpr",
    "C16_fresh_sgpr_rpchol",
    "C16_randomize_refuted",
    "C16_failed_fit_refuted",
    "C16_init_refuted"
   ],
   "note": "Positive part over all histories; stale predictions after randomize(reset=False), a failing minimising fit and init are refuted with witnesses."
  },
  {
   "property": "C17",
   "status": "proved",
   "theorems": [
    "C17_gpr_fit",
    "C17_fit_nlopt",
    "C17_losses",
    "C17_unusable_loss_refuted",
    "C17_sparse_fit_refuted",
    "C17_sparse_damage_refuted",
    "C17_sparse_predict_ol_refuted",
    "C17_rbf_refuted",
    "C17_rpchol_key_refuted",
    "C17_sum_kernel_refuted",
    "C17_predict_derivs",
    "C17_sparse_predict_derivs"
   ],
   "note": "Signatures are written down from the source; opt_kwargs are not modelled. Refutations hold for every input. C17_sum_kernel_refuted: Sum.d0kjc and d01kjc have no parameter called jaccoef."
  },
  {
   "property": "C18",
   "status": "proved",
   "theorems": [
    "C18_names_distinct",
    "C18_name",
    "C18_files",
    "C18_crash"
   ],
   "note": "File system as a map from names to contents; str.format on base names containing braces is not modelled."
  },
  {
   "property": "C19",
   "status": "proved",
   "theorems": [
    "C19_first_ill_typed",
    "C19_accepts",
    "C19_paths"
   ],
   "note": "Exact characterisation of the reported leaf; dictionary subclasses are not modelled."
  },
  {
   "property": "C20",
   "status": "proved",
   "theorems": [
    "C20_range",
    "C20_onto"
   ],
   "note": "All five bijector classes, reals."
  },
  {
   "property": "C21",
   "status": "proved",
   "theorems": [
    "C21_forward_backward",
    "C21_backward_forward",
    "C21_softplus_one_sided",
    "C21_minmax_edge_refuted"
   ],
   "note": "SoftMinMax: forward(backward y) away from the last 1e-300 above min (there backward is NaN, proved); backward(forward x) when the error bound is at most 1."
  },
  {
   "property": "C22",
   "status": "proved",
   "theorems": [
    "C22_forward_increasing",
    "C22_backward_increasing",
    "C22_slope"
   ],
   "note": "All five bijector classes."
  },
  {
   "property": "C23",
   "status": "proved",
   "theorems": [
    "C23_density",
    "C23_log_prior_joint",
    "C23_order_irrelevant",
    "C23_log_posterior",
    "C23_array_value_refuted",
    "C23_two_arrays_error"
   ],
   "note": "gammaln is an argument with exp(gammaln)=Gamma; scalar parameters; array parameters refuted."
  },
  {
   "property": "C24",
   "status": "proved",
   "theorems": [
    "C24_gram_transpose",
    "C24_d0k_d1k_transpose",
    "C24_d01k_transpose"
   ],
   "note": "Values, first and mixed derivative kernels. d01k away from the exact boundary of the Matern12/32 clamp max(d2,1e-36)."
  },
  {
   "property": "C25",
   "status": "proved",
   "theorems": [
    "C25_bounds",
    "C25_decreasing",
    "C25_distance_only",
    "C25_single_sample_diagonal",
    "C25_batched_diagonal"
   ],
   "note": "Batched Gram diagonals of SE/Matern are strictly below 1 by at most the jitter effect; the single-sample SE and periodic kernels are exactly 1."
  },
  {
   "property": "C26",
   "status": "proved",
   "theorems": [
    "C26_gram_psd"
   ],
   "note": "All nine kernel classes (Matern through mixtures of Gaussians) and all sums and products."
  },
  {
   "property": "C27",
   "status": "proved",
   "theorems": [
    "C27_batched_exact",
    "C27_batched_close",
    "C27_se_factor"
   ],
   "note": "Exact for unjittered kernels, explicit error bound propagated through sums and products otherwise."
  },
  {
   "property": "C28",
   "status": "proved",
   "theorems": [
    "C28_d0k_derivative",
    "C28_d1k_derivative",
    "C28_d0k_single_sample",
    "C28_d1k_single_sample"
   ],
   "note": "Exact derivative of the batched kernel for constant, linear, polynomial, no-intercept, periodic, Matern52 and their sums/products; for SE, Matern12, Matern32 the derivative methods differentiate the single-sample kernel."
  },
  {
   "property": "C29",
   "status": "proved",
   "theorems": [
    "C29_d01k_derivative",
    "C29_d01k_single_sample",
    "C29_d01k_se"
   ],
   "note": "As C28; SE mixed derivative is exact for the batched kernel."
  },
  {
   "property": "C30",
   "status": "proved",
   "theorems": [
    "C30_d0kj",
    "C30_d1kj",
    "C30_d01kj"
   ],
   "note": ""
  },
  {
   "property": "C31",
   "status": "proved",
   "theorems": [
    "C31_d0kjc",
    "C31_d01kjc",
    "C31_d01kjc_matern52",
    "C31_d0kjc_close",
    "C31_d01kjc_close",
    "C31_traced_d0kjc",
    "C31_traced_d01kjc"
   ],
   "note": "Exact equality for kernels without Matern52 (its d0kjc is generic while d0kj is the fast version); with Matern52 an explicit error bound."
  },
  {
   "property": "C32",
   "status": "proved",
   "theorems": [
    "C32_composite",
    "C32_composite_close"
   ],
   "note": "Sum and product rules, and a bound on the distance of any composite's computed derivatives from the true ones."
  },
  {
   "property": "C33",
   "status": "proved",
   "theorems": [
    "C33_inactive_values",
    "C33_inactive_d0k",
    "C33_inactive_d01k",
    "C33_active_values",
    "C33_active_d0k",
    "C33_active_d01k"
   ],
   "note": ""
  },
  {
   "property": "C34",
   "status": "proved",
   "theorems": [
    "C34_train_test",
    "C34_test_test",
    "C34_zero_sums",
    "C34_psd",
    "C34_idempotent"
   ],
   "note": ""
  },
  {
   "property": "C35",
   "status": "proved",
   "theorems": [
    "C35_matern32_jvp",
    "C35_matern52_jvp",
    "C35_matern32_coincident",
    "C35_matern52_coincident",
    "C35_vector_lengthscale_refuted",
    "C35_vector_lengthscale_rule"
   ],
   "note": "True directional derivative for scalar lengthscale; coincident points; refutation for vector lengthscales."
  },
  {
   "property": "C36",
   "status": "proved",
   "theorems": [
    "C36_periodic",
    "C36_circle"
   ],
   "note": ""
  },
  {
   "property": "C37",
   "status": "proved",
   "theorems": [
    "C37_matvec",
    "C37_gram",
    "C37_derivative_gram",
    "C37_value_derivative"
   ],
   "note": "General row functions, and the three operators of _gpr.py. Diagonal update needs h*rows <= columns (clamped slices otherwise)."
  },
  {
   "property": "C38",
   "status": "proved",
   "theorems": [
    "C38_residual",
    "C38_unique",
    "C38_derivatives",
    "C38_derivatives_pd",
    "C38_prediction",
    "C38_public",
    "C38_public_derivatives"
   ],
   "note": "Values and derivative training, any library solve satisfying linalg_ok; uniqueness of the coefficients."
  },
  {
   "property": "C39",
   "status": "proved",
   "theorems": [
    "C39_predict",
    "C39_predict_derivs",
    "C39_predict_y_derivs",
    "C39_jaccoef",
    "C39_jaccoef_values",
    "C39_jaccoef_close",
    "C39_jaccoef_values_close",
    "C39_fit",
    "C39_fit_derivs",
    "C39_fit_derivs_pd",
    "C39_public",
    "C39_public_derivatives",
    "C39_public_values"
   ],
   "note": "Coefficients, predictions, contracted predictions. Contracted versions exact without Matern52, with an explicit error bound in general. Derivative fits also for any kernel whose noisy derivative matrix is positive definite. C39_public*: the public fit and predict functions with their options, which fail exactly where C17_predict_derivs says."
  },
  {
   "property": "C40",
   "status": "proved",
   "theorems": [
    "C40_derivative",
    "C40_operator_learning",
    "C40_squared_exponential",
    "C40_public",
    "C40_sparse"
   ],
   "note": "Exact kernels, in every combination of options; single squared exponential with the factor exp(1e-12). fit_derivs always uses the zero mean."
  },
  {
   "property": "C41",
   "status": "proved",
   "theorems": [
    "C41_formula",
    "C41_order",
    "C41_more_data",
    "C41_derivatives",
    "C41_values_from_derivatives",
    "C41_values_from_derivatives_soft"
   ],
   "note": "Values, derivatives, values from derivatives. Derivative Gram condition excludes Matern12 (see C56); values from derivatives also for products of squared exponentials when the noise exceeds the slack."
  },
  {
   "property": "C42",
   "status": "proved",
   "theorems": [
    "C42_single_output",
    "C42_derivatives",
    "C42_derivatives_pd",
    "C42_permutation",
    "C42_multi_output",
    "C42_iterative",
    "C42_iterative_multi_output_refuted"
   ],
   "note": "Determinant is mathcomp's. Multi-output formula stated exactly; the iterative multi-output value is refuted."
  },
  {
   "property": "C43",
   "status": "proved",
   "theorems": [
    "C43_inverse",
    "C43_spd"
   ],
   "note": "sigma <> 0 (the code divides by sigma^2)."
  },
  {
   "property": "C44",
   "status": "proved",
   "theorems": [
    "C44_rpcholesky",
    "C44_rpcholesky_derivs",
    "C44_loop",
    "C44_diagonal_decreases",
    "C44_nystrom"
   ],
   "note": "Any pivot rule with pivots below n; Nystrom equality with the jitter replaced by 0."
  },
  {
   "property": "C45",
   "status": "proved",
   "theorems": [
    "C45_orthonormal",
    "C45_first_vector",
    "C45_tridiagonal",
    "C45_reduces",
    "C45_relation",
    "C45_krylov"
   ],
   "note": "The normal draws are an argument; orthonormality and the reduction assume each restart draws a vector outside the span of the previous columns (restarts_ok). Exact real arithmetic."
  },
  {
   "property": "C46",
   "status": "proved",
   "theorems": [
    "C46_quadrature",
    "C46_quadrature_exact",
    "C46_estimate",
    "C46_unbiased",
    "C46_identity",
    "C46_overestimate",
    "C46_mean_overestimate"
   ],
   "note": "eigh is an argument assumed to return an eigendecomposition of T (probe_ok); restarts only on vanishing residuals. Means are finite averages over all sign vectors."
  },
  {
   "property": "C47",
   "status": "proved",
   "theorems": [
    "C47_minimiser",
    "C47_minimiser_derivs",
    "C47_gpr",
    "C47_prediction",
    "C47_likelihood",
    "C47_rpchol",
    "C47_rpchol_iterative",
    "C47_rpchol_derivs",
    "C47_rpchol_derivs_iterative",
    "C47_rpchol_likelihood",
    "C47_likelihood_derivs",
    "C47_likelihood_derivs_refuted",
    "C47_rpchol_likelihood_derivs"
   ],
   "note": "cg, Cholesky, triangular solve and solve are arguments satisfying linalg_ok. Shape failures of the derivative likelihood and covariance are not represented here (see C49)."
  },
  {
   "property": "C48",
   "status": "proved",
   "theorems": [
    "C48_public",
    "C48_public_rpchol",
    "C48_public_derivatives",
    "C48_public_fit_derivatives",
    "C48_public_fit_derivatives_values",
    "C48_public_rpchol_derivatives",
    "C48_operators",
    "C48_fit",
    "C48_predict",
    "C48_predict_derivs",
    "C48_predict_y_derivs",
    "C48_jaccoef",
    "C48_jaccoef_values",
    "C48_jaccoef_close",
    "C48_jaccoef_values_close",
    "C48_likelihood",
    "C48_likelihood_operator",
    "C48_derivs_operator",
    "C48_fit_derivs_one",
    "C48_derivs_operator_refuted",
    "C48_likelihood_derivs_operator",
    "C48_likelihood_derivs_one",
    "C48_rpchol_likelihood_derivs_one"
   ],
   "note": "C48_derivs_operator_refuted: the vmap with out_axes=2 followed by reshape exchanges the inducing point and component axes. C48_public*: the public functions."
  },
  {
   "property": "C49",
   "status": "proved",
   "theorems": [
    "C49_gpr",
    "C49_gpr_mismatch",
    "C49_gpr_derivs",
    "C49_derivative_outputs_refuted",
    "C49_operator_learning",
    "C49_operator_learning_covariance_refuted",
    "C49_mse",
    "C49_sgpr",
    "C49_sgpr_derivs",
    "C49_sgpr_derivative_covariance_refuted",
    "C49_sgpr_value_covariance_refuted",
    "C49_sgpr_derivative_likelihood_refuted",
    "C49_sgpr_iterative_likelihood",
    "C49_sgpr_derivative_sampling_refuted"
   ],
   "note": "Shape calculus over all sizes; library shape rules are assumed (Model/Shapes.v). Kernels are assumed to reject points with different numbers of features."
  },
  {
   "property": "C50",
   "status": "proved",
   "theorems": [
    "C50_entries",
    "C50_raises",
    "C50_positive_definite",
    "C50_positive_definite_soft",
    "C50_matvec",
    "C50_rpcholesky"
   ],
   "note": "Entries and definiteness for kernels whose derivative methods are exact (exact k); the matrix-free product for every well-formed kernel."
  },
  {
   "property": "C51",
   "status": "proved",
   "theorems": [
    "C51_density",
    "C51_iterative_density",
    "C51_dense_value",
    "C51_agreement_refuted",
    "C51_same_order",
    "C51_definite"
   ],
   "note": "logdet is an argument of the matrix-free version, assumed equal to ln det in the density theorem. Disagreement refutes the claim for every kernel and point set."
  },
  {
   "property": "C52",
   "status": "proved",
   "theorems": [
    "C52_least_squares",
    "C52_any_svd",
    "C52_loss",
    "C52_covariance_is_prior",
    "C52_covariance_refuted"
   ],
   "note": "Least squares proved against an independently stated objective; covariance claim refuted."
  },
  {
   "property": "C53",
   "status": "proved",
   "theorems": [
    "C53_moments",
    "C53_columns_refuted",
    "C53_number_refuted",
    "C53_mismatch",
    "C53_prior",
    "C53_sparse_prior",
    "C53_sparse_prior_refuted",
    "C53_posterior",
    "C53_sparse_posterior",
    "C53_posterior_derivs",
    "C53_prior_derivs_refuted",
    "C53_unfitted"
   ],
   "note": "jax.random.multivariate_normal is modelled as mean + chol(cov) z with z from jax.random.normal; the draws are assumed white (uncorrelated, mean 0, variance 1). Several claims refuted, see statement."
  },
  {
   "property": "C54",
   "status": "proved",
   "theorems": [
    "C54_prediction",
    "C54_centered",
    "C54_training_prediction",
    "C54_linear",
    "C54_shift",
    "C54_pointwise",
    "C54_raises",
    "C54_centering_refuted",
    "C54_fresh_loss_refuted",
    "C54_loss",
    "C54_stationary_is_minimum"
   ],
   "note": "Prediction, linearity, pointwise dependence, loss and optimality proved; centring for 1<m<n and the loss of a fresh model refuted. jax facts assumed: arrays are unhashable as static arguments, einsum broadcasts axes of length one."
  },
  {
   "property": "C55",
   "status": "proved",
   "theorems": [
    "C55_squared_distances",
    "C55_positive",
    "C55_euclidean"
   ],
   "note": ""
  },
  {
   "property": "C56",
   "status": "proved",
   "theorems": [
    "C56_derivative_gram",
    "C56_joint",
    "C56_slack",
    "C56_slack_pd",
    "C56_joint_slack",
    "C56_matern12_refuted"
   ],
   "note": "Exact kernels and sums with SE: psd. Products of SE, sums with Matern32: psd up to an explicit slack (5e-12 resp. 3e-18 per unit of squared jacobian), positive definite with noise above it; joint matrix likewise. Products with Matern32 not covered. Matern12 refuted with a 2-point witness."
  },
  {
   "property": "C57",
   "status": "proved",
   "theorems": [
    "C57_formula",
    "C57_order",
    "C57_gpr_batch",
    "C57_sgpr_batch_refuted",
    "C57_sgpr_batch_shrinks",
    "C57_training_data"
   ],
   "note": "C57_sgpr_batch_refuted: finding; the covariance of _sgpr._predict_dense is built with the test points as x2 of _A_lhs."
  },
  {
   "property": "C58",
   "status": "proved",
   "theorems": [
    "C58_residuals",
    "C58_definite",
    "C58_predictions",
    "C58_derivatives",
    "C58_iterative_fit",
    "C58_iterative_predictions"
   ],
   "note": "Kernels whose derivative methods are exact. One output column, as in the code."
  },
  {
   "property": "C59",
   "status": "proved",
   "theorems": [
    "C59_training_only_refuted",
    "C59_prediction_only_refuted"
   ],
   "note": "Refutations only."
  },
  {
   "property": "C60",
   "status": "proved",
   "theorems": [
    "C60_gpr_error",
    "C60_gpr_derivs_error",
    "C60_sgpr_error",
    "C60_gpr_unbiased",
    "C60_gpr_derivs_unbiased",
    "C60_sgpr_unbiased",
    "C60_gpr_below",
    "C60_gpr_derivs_below",
    "C60_sgpr_below",
    "C60_td",
    "C60_posterior_key",
    "C60_posterior_refuted",
    "C60_defaults"
   ],
   "note": "Uniform independent signs are the assumed distribution of rademacher; probe_ok (restarts on vanishing residuals only, eigh diagonalises) is an hypothesis. The derivative likelihood of SGPR is not covered: C48 shows its operator is permuted."
  },
  {
   "property": "C61",
   "status": "proved",
   "theorems": [
    "C61_construction",
    "C61_history",
    "C61_fresh",
    "C61_saved",
    "C61_save_refuted",
    "C61_default_loss",
    "C61_key_refuted",
    "C61_stale_refuted"
   ],
   "note": "The linear algebra and the loss are arguments; arrays are assumed to survive np.savez (td_plain). A history is requested only together with a minimisation (otherwise fit raises UnboundLocalError after fitting, as C15_history_refuted shows for the other classes)."
  },
  {
   "property": "C62",
   "status": "proved",
   "theorems": [
    "C62_call",
    "C62_one_kernel",
    "C62_succeeds",
    "C62_key_error",
    "C62_only_these",
    "C62_order",
    "C62_stored",
    "C62_default",
    "C62_methods",
    "C62_methods_k",
    "C62_methods_succeed",
    "C62_methods_default"
   ],
   "note": "Values that are not 0-d real numbers, or degrees that are not natural numbers, give an unmodelled kernel (None) rather than an error. The derivative methods are followed by C62_methods: the closures built by operations.py return what the kernel of the parameters returns, on every dictionary that has the parameters."
  },
  {
   "property": "C63",
   "status": "proved",
   "theorems": [
    "C63_gram",
    "C63_runs",
    "C63_defaults",
    "C63_trainable_offset_refuted"
   ],
   "note": "The optimiser is any strategy proposing real numbers; the sampler has the shape and size of the prior and gives real numbers."
  },
  {
   "property": "C64",
   "status": "proved",
   "theorems": [
    "C64_linear",
    "C64_offset",
    "C64_constant",
    "C64_order",
    "C64_covariance_order",
    "C64_likelihood_offset",
    "C64_outputs",
    "C64_pooled_mean_refuted",
    "C64_translation",
    "C64_feature_order",
    "C64_iterative",
    "C64_sparse_linear",
    "C64_sparse_offset",
    "C64_sparse_order",
    "C64_inducing_order",
    "C64_derivatives_linear",
    "C64_derivatives_values_linear",
    "C64_derivatives_order",
    "C64_derivatives_values_order"
   ],
   "note": "Stationary means built from Constant, SquaredExponential, Matern and ExpSinSquared. For derivatives the noisy derivative matrix is assumed positive definite, which C56 gives."
  },
  {
   "property": "C65",
   "status": "proved",
   "theorems": [
    "C65_draws",
    "C65_sample",
    "C65_randomized",
    "C65_identity",
    "C65_value_refuted",
    "C65_sampler",
    "C65_gamma_positive"
   ],
   "note": "Distributions are functions from events to numbers, of which only the value on half-lines is used; the generators' laws are hypotheses. loc, scale, concentration and rate are numbers, not arrays."
  },
  {
   "property": "C66",
   "status": "proved",
   "theorems": [
    "C66_values",
    "C66_equal",
    "C66_gram",
    "C66_rule32",
    "C66_rule52",
    "C66_m52_d1k",
    "C66_raises",
    "C66_se_d01k",
    "C66_m52_d0k",
    "C66_m52_d01k",
    "C66_se_d01kj",
    "C66_m52_d01kj",
    "C66_se_d01k_refuted",
    "C66_m52_d0k_refuted"
   ],
   "note": "The distances are off the clamp of Matern kernels in the rules, as in C35. Kernels that differentiate automatically (d0k of SE, Matern12, Matern32) are covered through the rules only."
  },
  {
   "property": "C67",
   "status": "proved",
   "theorems": [
    "C67_construction",
    "C67_sgpr_construction",
    "C67_rpchol_construction",
    "C67_parameters",
    "C67_gpr",
    "C67_formula",
    "C67_loaded",
    "C67_derivatives",
    "C67_values_from_derivatives",
    "C67_sgpr_parameters",
    "C67_sgpr",
    "C67_rpchol",
    "C67_rpchol_parameters",
    "C67_sgpr_derivatives",
    "C67_rpchol_derivatives",
    "C67_default"
   ],
   "note": "n_pivots is an integer between 0 and the number of samples when iterative. Derivative predictions in the default mode are for kernels that are no sum and contain no Matern52 (their contracted methods differ, see C31 and C17). The method fit_derivs of the sparse classes raises TypeError (C17), so their derivatives are stated for the module function fit_derivs on the state at the end of any history, without covariance; the matrix-free fit is for one inducing point or one derivative per point (otherwise it differs, see C48)."
  },
  {
   "property": "C68",
   "status": "proved",
   "theorems": [
    "C68_construction",
    "C68_fit_refuted",
    "C68_load",
    "C68_parameters",
    "C68_frozen",
    "C68_prediction",
    "C68_centred_prediction",
    "C68_cleared_refuted",
    "C68_batch_refuted",
    "C68_fit_breaks_refuted",
    "C68_layer_refuted",
    "C68_saved"
   ],
   "note": "The full claim is false: every fit raises for all data (the restart routine is called without loss_fn), a failed fit clears the stored mean so that a centred network raises or its predictions depend on the batch, and reset loses the output layer even when a saved file is loaded afterwards. Each is a _refuted theorem for all networks and histories; the rest is proved."
  },
  {
   "property": "C69",
   "status": "proved",
   "theorems": [
    "C69_score",
    "C69_derivatives_score",
    "C69_sgpr_score",
    "C69_rpchol_score",
    "C69_one_score",
    "C69_objective",
    "C69_training",
    "C69_derivatives_training",
    "C69_nlopt",
    "C69_sgpr_nlopt",
    "C69_rpchol_nlopt",
    "C69_default"
   ],
   "note": "For iterative=False, targets with one output, and bijectors other than SoftMinMax for the trainable parameters (C21: its inverse is undefined at the lower end). The sparse classes are trained through fit_nlopt, because their method fit raises (C17). Gradients are not modelled: the optimiser may use any."
  },
  {
   "property": "C70",
   "status": "proved",
   "theorems": [
    "C70_user",
    "C70_library",
    "C70_sum",
    "C70_prod",
    "C70_covariance",
    "C70_gram",
    "C70_argnums",
    "C70_docstring_refuted"
   ],
   "note": "Autodiff is an argument of the model, assumed to return the partial derivatives. Library leaves: Constant, Linear, Polynomial, ExpSinSquared; for the others see C28-C31, where k and the derivatives differ by the jitter. Docstring usage refuted."
  },
  {
   "property": "C71",
   "status": "proved",
   "theorems": [
    "C71_values",
    "C71_covariance",
    "C71_derivatives",
    "C71_predict_derivs",
    "C71_predict_y_derivs",
    "C71_consistent",
    "C71_likelihood",
    "C71_likelihood_derivs",
    "C71_autodiff",
    "C71_smooth_library",
    "C71_smooth_composite",
    "C71_mixed",
    "C71_default_options",
    "C71_sum_refuted",
    "C71_library"
   ],
   "note": "Dense routines, in exact arithmetic. The hypotheses on the kernel are proved for library kernels with exact derivatives and inherited by sums and products (C70, C71_smooth_*); for the other library kernels C71_library leads back to C38-C42. The iterative routines are those of C39/C43 for library kernels only."
  },
  {
   "property": "C72",
   "status": "proved",
   "theorems": [
    "C72_values",
    "C72_gpr",
    "C72_covariance",
    "C72_derivatives",
    "C72_predict_derivs",
    "C72_predict_y_derivs",
    "C72_consistent",
    "C72_likelihood",
    "C72_likelihood_derivs",
    "C72_likelihood_derivs_refuted",
    "C72_library"
   ],
   "note": "Dense routines, in exact arithmetic; hypotheses on the kernel as in C71. C72_likelihood_derivs is for one jacobian column, the only case that runs for any number of inducing points. The iterative routines and SGPR_RPChol are covered for library kernels only (C47, C48)."
  },
  {
   "property": "C73",
   "status": "proved",
   "theorems": [
    "C73_views",
    "C73_table",
    "C73_table_raises",
    "C73_names",
    "C73_names_refuted",
    "C73_repr_refuted",
    "C73_accessors",
    "C73_reset",
    "C73_reset_sparse_refuted"
   ],
   "note": "The cells of the table are the objects shown, not their text: str(bijector), str(prior), np.array2string and tabulate are not modelled, nor is ModelState.__repr__."
  },
  {
   "property": "C74",
   "status": "proved",
   "theorems": [
    "C74_distance",
    "C74_swap",
    "C74_symmetric_refuted",
    "C74_self",
    "C74_nonnegative_refuted",
    "C74_bounded",
    "C74_bounded_refuted",
    "C74_gram_refuted",
    "C74_kernel",
    "C74_kernel_matern12",
    "C74_gram",
    "C74_gram_matern12",
    "C74_matern12",
    "C74_bijectors",
    "C74_strict_refuted"
   ],
   "note": "binary64 without overflow and fused multiply-add. The five properties that fail with rounding are refuted with concrete points."
  },
  {
   "property": "C75",
   "status": "proved",
   "theorems": [
    "C75_contents",
    "C75_fit",
    "C75_td_fit",
    "C75_nlopt",
    "C75_others",
    "C75_unchanged_refuted",
    "C75_nlopt_refuted",
    "C75_sparse_refuted"
   ],
   "note": "Only the library writes to the dictionary. Two claims about the dictionary are refuted."
  },
  {
   "property": "C76",
   "status": "proved",
   "theorems": [
    "C76_state",
    "C76_state_nlopt",
    "C76_training",
    "C76_training_nlopt",
    "C76_no_training",
    "C76_raised",
    "C76_last",
    "C76_none",
    "C76_randomized",
    "C76_current_refuted"
   ],
   "note": "GPR, SGPR and SGPR_RPChol through their base class; that the histories belong to the last training is refuted."
  }
 ]
}