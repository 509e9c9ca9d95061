# What Print Assumptions lists for each theorem

Written by tools/assumptions.py. 541 theorems.

## Closed under the global context

C01_colon_refuted, C01_flatten_unflatten, C01_identity_refuted, C01_null_refuted, C02_none_refuted, C04_caller_dict, C04_parameter, C04_parameter_caller_dict, C05_constructor, C11_key_needed, C14_validation, C15_guard_refuted, C16_init_refuted, C17_losses, C18_name, C18_names_distinct, C19_accepts, C19_first_ill_typed, C19_paths, C47_likelihood_derivs_refuted, C49_derivative_outputs_refuted, C49_gpr, C49_gpr_derivs, C49_gpr_mismatch, C49_mse, C49_operator_learning, C49_operator_learning_covariance_refuted, C49_sgpr, C49_sgpr_derivative_covariance_refuted, C49_sgpr_derivative_likelihood_refuted, C49_sgpr_derivs, C49_sgpr_iterative_likelihood, C49_sgpr_value_covariance_refuted, C60_defaults, C61_default_loss, C70_argnums, C73_names, C73_table, C73_table_raises

## `ClassicalDedekindReals.sig_forall_dec`

C02_failed_save, C02_file_attribute_refuted, C04_compose, C04_copy, C04_fields, C04_succeeds, C06_reject, C06_replace, C17_rbf_refuted, C17_rpchol_key_refuted, C31_traced_d0kjc, C53_columns_refuted, C53_mismatch, C53_number_refuted, C54_fresh_loss_refuted, C61_construction, C62_stored, C67_construction, C67_rpchol_construction, C67_sgpr_construction, C68_construction, C70_docstring_refuted, C71_default_options, C73_names_refuted

## `ClassicalDedekindReals.sig_forall_dec`, `FunctionalExtensionality.functional_extensionality_dep`

C02_bool_array_refuted, C02_save_load, C02_string_refuted, C02_suffix_refuted, C03_accepted, C03_count, C03_misfit, C03_names_ignored, C03_names_refuted, C03_no_params, C04_twice_refuted, C17_sparse_predict_ol_refuted, C31_traced_d01kjc, C34_idempotent, C34_test_test, C34_train_test, C34_zero_sums, C37_matvec, C43_inverse, C43_spd, C49_sgpr_derivative_sampling_refuted, C53_moments, C53_unfitted, C55_positive, C55_squared_distances, C62_one_kernel, C65_gamma_positive, C65_sampler, C70_gram, C70_user, C71_covariance, C71_sum_refuted, C71_values, C72_covariance, C72_gpr, C72_values, C73_accessors, C73_repr_refuted

## `ClassicalDedekindReals.sig_forall_dec`, `ClassicalDedekindReals.sig_not_dec`, `FunctionalExtensionality.functional_extensionality_dep`

C17_predict_derivs, C17_sparse_predict_derivs, C17_sum_kernel_refuted, C24_d0k_d1k_transpose, C24_gram_transpose, C25_distance_only, C25_single_sample_diagonal, C27_batched_exact, C27_se_factor, C30_d01kj, C30_d0kj, C30_d1kj, C33_active_values, C33_inactive_d01k, C33_inactive_d0k, C33_inactive_values, C34_psd, C35_vector_lengthscale_refuted, C36_circle, C36_periodic, C37_derivative_gram, C37_gram, C37_value_derivative, C38_prediction, C39_predict, C39_predict_y_derivs, C44_diagonal_decreases, C44_loop, C44_nystrom, C45_first_vector, C45_krylov, C45_orthonormal, C45_reduces, C45_relation, C45_tridiagonal, C46_quadrature, C46_quadrature_exact, C47_prediction, C48_operators, C48_predict, C48_predict_derivs, C48_predict_y_derivs, C50_matvec, C50_raises, C52_loss, C53_prior_derivs_refuted, C54_centered, C54_centering_refuted, C54_linear, C54_loss, C54_pointwise, C54_prediction, C54_raises, C54_shift, C54_stationary_is_minimum, C54_training_prediction, C55_euclidean, C58_definite, C59_prediction_only_refuted, C62_call, C62_default, C62_key_error, C62_methods, C62_methods_default, C62_methods_k, C62_methods_succeed, C62_only_these, C62_order, C62_succeeds, C63_defaults, C64_derivatives_linear, C64_derivatives_values_linear, C66_equal, C66_m52_d01kj, C66_raises, C66_se_d01kj, C66_values, C67_default, C69_default, C70_covariance, C70_prod, C70_sum, C71_smooth_composite

## `ClassicalDedekindReals.sig_forall_dec`, `ClassicalDedekindReals.sig_not_dec`, `Classical_Prop.classic`, `FunctionalExtensionality.functional_extensionality_dep`

C05_parameter_history, C05_state_history, C06_roundtrip, C07_forgets, C07_parameter, C07_randomize, C08_draws, C08_keys, C08_keys_distinct, C08_restart_draws_refuted, C08_restart_keys_refuted, C09_ravel_unravel, C09_unravel, C09_unravel_ravel, C09_unravel_succeeds, C09_vector_length, C09_wrong_length, C10_legal, C10_objective, C10_visited_states, C11_best_state, C11_succeeds, C12_frozen_refuted, C12_result, C12_same_as_scipy, C13_best_trial, C13_local_search, C13_local_search_range, C13_no_finite_cost, C13_range_refuted, C14_best_refuted, C14_frozen, C14_frozen_close, C14_history, C14_one_sided, C14_run_succeeds, C14_steps, C14_succeeds, C14_update_every, C14_validation_free, C14_visited_states, C14_weight_decay_refuted, C15_failed_call_refuted, C15_gpr, C15_history_refuted, C15_saved_gpr, C15_saved_rpchol, C15_saved_sgpr, C15_sgpr, C15_sgpr_rpchol, C16_failed_fit_refuted, C16_fresh, C16_fresh_sgpr, C16_fresh_sgpr_rpchol, C16_randomize_refuted, C17_fit_nlopt, C17_gpr_fit, C17_sparse_damage_refuted, C17_sparse_fit_refuted, C17_unusable_loss_refuted, C18_crash, C18_files, C20_onto, C20_range, C21_backward_forward, C21_forward_backward, C21_minmax_edge_refuted, C21_softplus_one_sided, C22_backward_increasing, C22_forward_increasing, C22_slope, C23_array_value_refuted, C23_density, C23_log_posterior, C23_log_prior_joint, C23_order_irrelevant, C23_two_arrays_error, C24_d01k_transpose, C25_batched_diagonal, C25_bounds, C25_decreasing, C26_gram_psd, C27_batched_close, C28_d0k_derivative, C28_d0k_single_sample, C28_d1k_derivative, C28_d1k_single_sample, C29_d01k_derivative, C29_d01k_se, C29_d01k_single_sample, C31_d01kjc, C31_d01kjc_close, C31_d01kjc_matern52, C31_d0kjc, C31_d0kjc_close, C32_composite, C32_composite_close, C33_active_d01k, C33_active_d0k, C35_matern32_coincident, C35_matern32_jvp, C35_matern52_coincident, C35_matern52_jvp, C35_vector_lengthscale_rule, C38_derivatives, C38_derivatives_pd, C38_public, C38_public_derivatives, C38_residual, C38_unique, C39_fit, C39_fit_derivs, C39_fit_derivs_pd, C39_jaccoef, C39_jaccoef_close, C39_jaccoef_values, C39_jaccoef_values_close, C39_predict_derivs, C39_public, C39_public_derivatives, C39_public_values, C40_derivative, C40_operator_learning, C40_public, C40_sparse, C40_squared_exponential, C41_derivatives, C41_formula, C41_more_data, C41_order, C41_values_from_derivatives, C41_values_from_derivatives_soft, C44_rpcholesky, C44_rpcholesky_derivs, C46_estimate, C46_identity, C46_overestimate, C47_gpr, C47_minimiser, C47_minimiser_derivs, C47_rpchol, C47_rpchol_derivs, C47_rpchol_derivs_iterative, C47_rpchol_iterative, C48_derivs_operator, C48_derivs_operator_refuted, C48_fit, C48_fit_derivs_one, C48_jaccoef, C48_jaccoef_close, C48_jaccoef_values, C48_jaccoef_values_close, C48_likelihood_derivs_operator, C48_likelihood_operator, C48_public, C48_public_derivatives, C48_public_fit_derivatives, C48_public_fit_derivatives_values, C48_public_rpchol, C48_public_rpchol_derivatives, C50_entries, C50_positive_definite, C50_positive_definite_soft, C50_rpcholesky, C52_any_svd, C52_covariance_is_prior, C52_covariance_refuted, C52_least_squares, C53_posterior, C53_posterior_derivs, C53_prior, C53_sparse_posterior, C53_sparse_prior, C53_sparse_prior_refuted, C56_derivative_gram, C56_joint, C56_joint_slack, C56_matern12_refuted, C56_slack, C56_slack_pd, C57_formula, C57_gpr_batch, C57_order, C57_sgpr_batch_refuted, C57_sgpr_batch_shrinks, C57_training_data, C58_derivatives, C58_iterative_fit, C58_iterative_predictions, C58_predictions, C58_residuals, C59_training_only_refuted, C60_posterior_key, C61_fresh, C61_history, C61_key_refuted, C61_save_refuted, C61_saved, C61_stale_refuted, C63_gram, C63_runs, C63_trainable_offset_refuted, C64_constant, C64_iterative, C64_linear, C64_offset, C64_outputs, C64_pooled_mean_refuted, C64_sparse_linear, C64_sparse_offset, C64_translation, C65_draws, C65_identity, C65_randomized, C65_sample, C65_value_refuted, C66_gram, C66_m52_d01k, C66_m52_d0k, C66_m52_d0k_refuted, C66_m52_d1k, C66_rule32, C66_rule52, C66_se_d01k, C66_se_d01k_refuted, C67_derivatives, C67_formula, C67_gpr, C67_loaded, C67_parameters, C67_rpchol, C67_rpchol_derivatives, C67_rpchol_parameters, C67_sgpr, C67_sgpr_derivatives, C67_sgpr_parameters, C67_values_from_derivatives, C68_batch_refuted, C68_centred_prediction, C68_cleared_refuted, C68_fit_breaks_refuted, C68_fit_refuted, C68_frozen, C68_layer_refuted, C68_load, C68_parameters, C68_prediction, C68_saved, C70_library, C71_autodiff, C71_consistent, C71_derivatives, C71_library, C71_mixed, C71_predict_derivs, C71_predict_y_derivs, C71_smooth_library, C72_consistent, C72_derivatives, C72_library, C72_likelihood_derivs_refuted, C72_predict_derivs, C72_predict_y_derivs, C73_reset, C73_reset_sparse_refuted, C73_views, C74_bijectors, C74_bounded, C74_bounded_refuted, C74_case, C74_distance, C74_gram, C74_gram_case, C74_gram_matern12, C74_gram_refuted, C74_kernel, C74_kernel_matern12, C74_matern12, C74_nonnegative_refuted, C74_self, C74_strict_refuted, C74_swap, C74_symmetric_refuted, C75_contents, C75_fit, C75_nlopt, C75_nlopt_refuted, C75_others, C75_sparse_refuted, C75_td_fit, C75_unchanged_refuted, C76_current_refuted, C76_last, C76_no_training, C76_none, C76_raised, C76_randomized, C76_state, C76_state_nlopt, C76_training, C76_training_nlopt

## `ClassicalDedekindReals.sig_forall_dec`, `ClassicalDedekindReals.sig_not_dec`, `ClassicalEpsilon.constructive_indefinite_description`, `Classical_Prop.classic`, `FunctionalExtensionality.functional_extensionality_dep`

C42_derivatives, C42_derivatives_pd, C42_iterative, C42_iterative_multi_output_refuted, C42_multi_output, C42_permutation, C42_single_output, C46_mean_overestimate, C46_unbiased, C47_likelihood, C47_likelihood_derivs, C47_rpchol_likelihood, C47_rpchol_likelihood_derivs, C48_likelihood, C48_likelihood_derivs_one, C48_rpchol_likelihood_derivs_one, C51_agreement_refuted, C51_definite, C51_dense_value, C51_density, C51_iterative_density, C51_same_order, C60_gpr_below, C60_gpr_derivs_below, C60_gpr_derivs_error, C60_gpr_derivs_unbiased, C60_gpr_error, C60_gpr_unbiased, C60_posterior_refuted, C60_sgpr_below, C60_sgpr_error, C60_sgpr_unbiased, C60_td, C64_covariance_order, C64_derivatives_order, C64_derivatives_values_order, C64_feature_order, C64_inducing_order, C64_likelihood_offset, C64_order, C64_sparse_order, C69_derivatives_score, C69_derivatives_training, C69_nlopt, C69_objective, C69_one_score, C69_rpchol_nlopt, C69_rpchol_score, C69_score, C69_sgpr_nlopt, C69_sgpr_score, C69_training, C71_likelihood, C71_likelihood_derivs, C72_likelihood, C72_likelihood_derivs
