{"claims": [
{"property": "C01", "status": "proved", "theorems": ["C01_with_obs_keeps_pairing", "C01_with_obs_raises_exactly", "C01_with_axes_keeps_pairing", "C01_with_axes_raises_exactly"], "note": ""},
{"property": "C02", "status": "proved", "theorems": ["C02_with_obs_compose", "C02_with_obs_undo", "C02_with_own_obs_is_identity"], "note": ""},
{"property": "C03", "status": "proved", "theorems": ["C03_reorder_x_by_name", "C03_reorder_x_for_function", "C03_reorder_x_directions_inverse", "C03_reorder_x_by_axis", "C03_reorder_x_for_function_axes"], "note": ""},
{"property": "C04", "status": "proved", "theorems": ["C04_with_obs_keeps_limits", "C04_with_obs_raises_exactly", "C04_subspace_keeps_limits", "C04_reorder_keeps_inside", "C04_reorder_keeps_volume", "C04_volume_is_product", "C04_functional_limit_refuted", "C04_binning_order_refuted", "C04_autofill_overwrite_refuted", "C04_with_axes_keeps_limits", "C04_axes_attached"], "note": "For rectangular spaces. The refuted theorems are findings next to the property: functional limits under sub-selection, a binning listed in another order than the observables, and stale axes limits after with_autofill_axes(overwrite=True)."},
{"property": "C05", "status": "proved", "theorems": ["C05_inside_iff_in_box", "C05_every_observable_has_one_limit", "C05_inside_wrong_number_of_columns", "C05_filter_keeps_exactly_inside", "C05_filter_idempotent", "C05_filter_twice_keeps_both", "C05_filter_dataframe", "C05_created_limits", "C05_limit_flags", "C05_functional_limits"], "note": ""},
{"property": "C06", "status": "partial", "theorems": ["C06_combined_limits", "C06_combined_inside", "C06_two_spaces_raise_exactly", "C06_raise_exactly_partial", "C06_mismatch_accepted_refuted", "C06_compatible_key_error_refuted", "C06_binned_and_unbinned_refused", "C06_several_limits_combined", "C06_several_limits_product", "C06_several_limits_dropped_refuted", "C06_several_limits_order_refuted", "C06_combined_binning", "C06_different_binnings_combined_refuted", "C06_several_limits_need_limits", "C06_several_limits_and_bins"], "note": "The full statement is false of the code for three or more spaces with nested sharing of observables (refuted by two witnesses); proved in full for two spaces and for any number without nested sharing. Spaces with several limits: proved exactly for two of them; limits are dropped silently and the order decides about the error (refuted)."},
{"property": "C07", "status": "proved", "theorems": ["C07_any_of_the_limits", "C07_order_independent", "C07_different_observables_refused", "C07_mixed_limits_refused", "C07_different_binnings_refused", "C07_guaranteed_inside"], "note": ""},
{"property": "C08", "status": "proved", "theorems": ["C08_equal_iff", "C08_equality_reflexive", "C08_equality_symmetric", "C08_equality_ignores_order", "C08_equal_but_different_hash_refuted", "C08_not_transitive_refuted", "C08_binning_ignored_refuted", "C08_equal_with_or_without_limits", "C08_equal_functional_limits", "C08_functional_not_rectangular", "C08_limit_objects_equal", "C08_equal_functional_different_points_refuted", "C08_limit_equality_not_symmetric_refuted"], "note": "The refuted theorems are findings beyond the property: hash, transitivity, binning."},
{"property": "C09", "status": "partial", "theorems": ["C09_less_equal_compares_ends", "C09_less_equal_containment_refuted", "C09_containment_without_less_equal_refuted", "C09_less_equal_with_binning", "C09_limit_objects_less_equal"], "note": "The statement is false of the code (refuted); what <= compares is proved exactly."},
{"property": "C10", "status": "partial", "theorems": ["C10_truncated_rejects_exactly_overlaps", "C10_truncated_order_independent", "C10_limits_overlap_order_refuted", "C10_limits_overlap_rule"], "note": "The TruncatedPDF half is proved; the limits_overlap half is false of the code (refuted)."},
{"property": "C11", "status": "partial", "theorems": ["C11_obs_subsets_partition_partial", "C11_bridge_refuted", "C11_object_lost_refuted"], "note": "False of the code in general (refuted); proved when sharing an observable is transitive among the objects."},
{"property": "C12", "status": "partial", "theorems": ["C12_value_in_limits_partial", "C12_last_value_written", "C12_nan_refuted"], "note": "Missing: writing NaN, which a limited parameter accepts and returns (refuted). Proved for every history without NaN."},
{"property": "C13", "status": "proved", "theorems": ["C13_set_value", "C13_not_finite", "C13_fixed_limits_refuted", "C13_graph_mode_differs_refuted", "C13_graph_mode_exactly"], "note": "The refuted theorems are findings: with lower == upper the only allowed value is rejected; inside a graph the limits themselves are rejected."},
{"property": "C14", "status": "partial", "theorems": ["C14_block_restores", "C14_refused_entry", "C14_nested_restored_partial", "C14_graph_dict_refuted", "C14_set_values_entry_refuted", "C14_bad_graph_mode_refuted", "C14_limits_changed_refuted"], "note": "Proved for blocks of any nesting; excluded (and refuted by witnesses) are dictionary graph modes, a set_values call that is refused midway, an invalid graph mode, and bodies that change the limits."},
{"property": "C15", "status": "proved", "theorems": ["C15_positional", "C15_mapping", "C15_mapping_total", "C15_result", "C15_invalid", "C15_assign_values", "C15_empty_unchecked_refuted"], "note": "The refuted theorem is a finding: for an empty list of parameters the values are not checked."},
{"property": "C16", "status": "partial", "theorems": ["C16_get_params_exact", "C16_raises_exactly", "C16_default_never_raises", "C16_autograd_exact", "C16_loss_yields_refuted", "C16_nested_composed_refuted", "C16_autograd_false_exact"], "note": "Proved for models in full. False for a loss that is not extended asked for is_yield=True (refuted). C16_nested_composed_refuted shows what extract_independent=None leaves out."},
{"property": "C17", "status": "proved", "theorems": ["C17_pool_restored", "C17_acquired_distinct", "C17_acquired_number", "C17_exception_loses_cpus_refuted", "C17_register_inside_refuted"], "note": "The refuted theorems are findings beyond the property: a block that ends with an exception loses its CPUs for good, and set_n_cpu inside a block duplicates them."},
{"property": "C18", "status": "partial", "theorems": ["C18_dependents_invalidated", "C18_change_completes", "C18_others_untouched", "C18_eager_invalidates_all", "C18_eager_spares_unrelated_refuted", "C18_cycle_refuted"], "note": "Invalidation is proved in full; that unrelated caches are untouched is proved inside a TensorFlow graph and false eagerly (refuted), where everything is cleared. A cyclic registration ends in RecursionError (C18_cycle_refuted)."},
{"property": "C19", "status": "proved", "theorems": ["C19_bounded", "C19_calls_never_fail", "C19_first_in_first_out", "C19_displaces_oldest", "C19_set_size", "C19_size_zero_refuted"], "note": "For every size of at least one, which is what the public setter accepts. C19_size_zero_refuted: cachesize=0 given to the decorator makes every call fail."},
{"property": "C20", "status": "partial", "theorems": ["C20_pdf_fresh_partial", "C20_pdf_returns_partial", "C20_integral_fresh_partial", "C20_integral_returns_partial", "C20_fixed_parameter_refuted", "C20_norm_refuted", "C20_after_exception_refuted", "C20_number_of_events_refuted", "C20_some_fixed_refuted"], "note": "False of the code in general (refuted by five witnesses: a changed fixed parameter, a changed norm, an evaluation that raised, another number of events, some parameters fixed); proved for histories without these."},
{"property": "C21", "status": "partial", "theorems": ["C21_array_cut", "C21_mapping_cut", "C21_array_and_mapping_agree", "C21_cut_idempotent", "C21_guaranteed_keeps_all", "C21_misfit_raises", "C21_functional_limits_refuted"], "note": "Proved for spaces with rectangular limits or without limits. With limits given by a function of several observables an array is cut but a mapping of columns raises (refuted). MultiSpaces are not modelled here."},
{"property": "C22", "status": "partial", "theorems": ["C22_value_by_name", "C22_foreign_names_raise", "C22_with_obs", "C22_with_space", "C22_with_obs_keeps_rows_partial", "C22_reorderings_compose", "C22_reordering_undone", "C22_reads_do_not_interfere", "C22_value_by_axes", "C22_unknown_axes_raise", "C22_with_axes", "C22_guarantee_forgotten_refuted"], "note": "Columns by name hold for all data sets; that with_obs keeps all rows and weights is proved for data inside the limits of their space and false for data created with guarantee_limits=True (refuted), which a reordering cuts again (C22_with_obs says exactly how)."},
{"property": "C23", "status": "partial", "theorems": ["C23_concat_index", "C23_concat_index_raises", "C23_samplesize_adds", "C23_concat_obs_partial", "C23_concat_obs_columns_refuted", "C23_concat_index_outside_refuted"], "note": "Along the index in full. Along the observables if one data set holds an array; if all of them hold columns (also after a mere read) the call fails with AttributeError (refuted)."},
{"property": "C24", "status": "partial", "theorems": ["C24_update_array", "C24_update_data", "C24_failed_update_partial", "C24_history_consistent_partial", "C24_new_sampler_consistent", "C24_failed_update_refuted", "C24_resample_outside_refuted", "C24_weighted_view_refuted"], "note": "False in general: weights given to a sampler without weights (or the other way round) raise after the rows were replaced (refuted). Proved for all histories in which the new samples have weights iff the sampler has."},
{"property": "C25", "status": "partial", "theorems": ["C25_by_name_partial", "C25_two_observables", "C25_content_exactly", "C25_accepted_exactly", "C25_round_trip", "C25_subset_raises", "C25_three_cycle_refuted"], "note": "Contents stay with their names for every reordering that trades places (all of them up to two observables); for a circle of three or more the contents are found under the wrong names, or the call raises when the numbers of bins differ (refuted). The round trip holds always."},
{"property": "C26", "status": "partial", "theorems": ["C26_one_bin", "C26_bins_partial", "C26_binning_by_name", "C26_other_names_refused", "C26_column_order_refuted", "C26_bin_numbers", "C26_bin_numbers_flow", "C26_round_trip"], "note": "Proved when the columns are in the order of the space, or when a binning is given instead of a space; with a space in another order the columns are filled in the wrong axes (refuted)."},
{"property": "C27", "status": "proved", "theorems": ["C27_linear_binning", "C27_simple_total", "C27_simple_nearest_refuted", "C27_above_grid_refuted"], "note": "The refuted theorems are findings outside of the property: the simple method splits events, and an event just above the grid is counted at its first point."},
{"property": "C28", "status": "partial", "theorems": ["C28_sum", "C28_nll_formula", "C28_binned_formula", "C28_chi2_formula", "C28_add_partial", "C28_add_other_type_raises", "C28_add_chi2_refuted"], "note": "The sum over channels and constraints holds for all kinds of losses and all data with a weight per event, with the formula of each kind. Adding losses adds values; for chi2 losses with errors='expected' the option is dropped and the values do not add (refuted)."},
{"property": "C29", "status": "partial", "theorems": ["C29_pairs_partial", "C29_accepted_pairs", "C29_numbers_differ_refuted"], "note": "Pairing in order holds; different numbers of models and data are accepted and the rest of the longer list silently ignored (refuted)."},
{"property": "C30", "status": "partial", "theorems": ["C30_offset_once", "C30_constant", "C30_same_minima_and_gradients", "C30_nll_shift", "C30_graph_first_refuted", "C30_floating_refuted"], "note": "Holds from the first evaluation outside of a graph on, for all kinds of losses and every history. A first evaluation inside a graph does not fix the offset (refuted); for binned losses fixing or floating a parameter of a constraint changes the difference (refuted)."},
{"property": "C31", "status": "partial", "theorems": ["C31_extended", "C31_minimum", "C31_binned_minimum", "C31_fit_range_refuted"], "note": "With n the sum of weights of all events given. With a fit range n includes the events outside of it (refuted), so that the minimum is not at the number of events used."},
{"property": "C32", "status": "proved", "theorems": ["C32_loss_params_in_order", "C32_loss_params_exact"], "note": ""},
{"property": "C33", "status": "partial", "theorems": ["C33_fractions", "C33_remaining_fraction", "C33_yield_fractions", "C33_accepts", "C33_sum_behaves", "C33_pdf", "C33_component_values", "C33_pdf_any_norm", "C33_normalised", "C33_integral_of_pdf_one", "C33_non_negative", "C33_extended", "C33_own_yield", "C33_yield", "C33_analytic", "C33_no_analytic", "C33_all_fractions_refuted"], "note": "Holds for n-1 fractions and for extended components, and for sums of sums. With as many fractions as PDFs that do not add up to one the pdf is not normalised although integrate says one (refuted). Components are any PDFs that behave (Disp theorems give such PDFs); values of fractions and yields at one time."},
{"property": "C34", "status": "partial", "theorems": ["C34_product_behaves", "C34_pdf", "C34_integrate", "C34_analytic", "C34_no_analytic", "C34_any_overlap", "C34_integral_of_pdf_one", "C34_nested_not_split", "C34_single_factor_refuted", "C34_extra_observable_refuted"], "note": "Proved for two or more factors: the pdf is the product of the factors' pdfs at their own coordinates whatever the column order, integrals factorise, and with any overlap the values of the pdf integrate to one over the norm if the numeric integration of overlapping factors is exact. Refuted: a product of a single PDF raises when evaluated over that PDF's norm, and an observable that no factor has is left out of the normalisation. Sampling is treated in C46."},
{"property": "C35", "status": "proved", "theorems": ["C35_limits", "C35_rows", "C35_select", "C35_concat"], "note": "One observable (the code orders the limits by v1.lower). The wrapped PDF is any function that evaluates row by row within the limits; it is shown not to be called elsewhere."},
{"property": "C36", "status": "proved", "theorems": ["C36_integrate", "C36_numeric", "C36_analytic", "C36_norm_is_one", "C36_additive", "C36_own_method_first", "C36_analytic_before_numeric", "C36_registered_before_numeric", "C36_supported_norm", "C36_unsupported_norm"], "note": "A norm space without any limits set is not modelled."},
{"property": "C37", "status": "partial", "theorems": ["C37_found_was_registered", "C37_highest_priority_partial", "C37_found_if_any_allows_partial", "C37_last_considered", "C37_any_limits", "C37_several_limits_none", "C37_contained_refuted", "C37_overwritten_refuted", "C37_registered_again"], "note": "The axes and the limits are always respected; the highest priority is proved if no two registered limits are equal up to wildcards and tolerance. Otherwise the later registration replaces the earlier whatever its priority (refuted). The comparison of limits is not containment (refuted)."},
{"property": "C38", "status": "proved", "theorems": ["C38_simpson_exact", "C38_points_odd", "C38_rule_accepts", "C38_weights", "C38_no_points"], "note": "For every requested number of points of at least one; zero points raise (C38_no_points). Limits are finite; real arithmetic."},
{"property": "C39", "status": "partial", "theorems": ["C39_average", "C39_draws_partial", "C39_draws_refuted", "C39_zero_refuted", "C39_error_scales", "C39_vectorized", "C39_chunks", "C39_points_in_box", "C39_boxes_add", "C39_constant_exact", "C39_method"], "note": "The plain average over all batches, termination and the exact stopping rule are proved. Two parts are false of the code: the number of draws is checked before a batch, so it may exceed the maximum by less than a batch (refuted, and the bound proved), and the tolerance is compared with an absolute error (C39_error_scales). Partial integration (points given) is not modelled."},
{"property": "C40", "status": "proved", "theorems": ["C40_legendre", "C40_chebyshev", "C40_chebyshev2", "C40_hermite", "C40_laguerre", "C40_bernstein", "C40_bernstein_empty", "C40_normalised", "C40_unscaled_refuted", "C40_bernstein_unscaled_refuted"], "note": "For PDFs on a scaled range, as stated. With apply_scaling=False all the integrals are wrong unless the range happens to be that of the polynomials (refuted). Real arithmetic, one limit."},
{"property": "C41", "status": "proved", "theorems": ["C41_counts", "C41_density", "C41_all_axes", "C41_additive", "C41_monotone", "C41_full", "C41_outside_refuted", "C41_density_axis_refuted", "C41_arguments", "C41_axes_checked", "C41_histogram", "C41_binned_limits_refuted"], "note": "Any number of axes, any subset integrated. Outside of the statement, and refuted: a range outside of the edges gives a negative integral; a density integrated over some axes is multiplied by the widths of the others too; limits that carry their own binning give one whatever they cover."},
{"property": "C42", "status": "partial", "theorems": ["C42_maxiter", "C42_value", "C42_value_gradient", "C42_gradient", "C42_hessian", "C42_never_nan", "C42_streak", "C42_abandon_refuted", "C42_gradient_refuted", "C42_hessian_refuted", "C42_print_refuted"], "note": "Every history of requests of any kind, whatever the loss did. The limit, the values, the streaks and the reset hold as stated. False: an exception that leaves an ignore_maxiter block switches the limit off for ever; a NaN gradient before any good gradient is answered by None; a NaN Hessian is passed on; with do_print a failed numerical check raises ValueError (all refuted)."},
{"property": "C43", "status": "proved", "theorems": ["C43_steps", "C43_default_steps", "C43_valid", "C43_report", "C43_settled", "C43_edm", "C43_edm_negative_refuted"], "note": "For every step function, Hessian and criterion. Outside of the statement, and refuted: with a tolerance above 999999 a negative EDM is accepted."},
{"property": "C44", "status": "partial", "theorems": ["C44_left", "C44_partial", "C44_same_outcome", "C44_updates_on", "C44_exception_refuted", "C44_start_values_refuted", "C44_init_refuted", "C44_point_limits_refuted", "C44_other_parameters_refuted", "C44_no_result_refuted"], "note": "Proved for minimisations that return, without start values or init, of parameters of the loss; the minimiser is any function that moves only its own parameters. False otherwise (all refuted): an exception leaves the parameters where the minimiser put them; start values and values of init stay; parameters outside of the loss are not restored; a parameter whose limits are one point makes minimize raise after a successful minimisation."},
{"property": "C45", "status": "proved", "theorems": ["C45_exactly_n", "C45_positive", "C45_none_needed", "C45_same_chance", "C45_scale_grows", "C45_checked", "C45_terminates", "C45_thinning", "C45_batch_size", "C45_uniform_never_fails", "C45_uniform_scale", "C45_uniform_proposals", "C45_uniform_split", "C45_many_limits_refuted", "C45_zero_density_refuted"], "note": "One box of limits: proved for every density, proposal and random outcome. Termination needs an iteration that accepts (C45_terminates); a density that is zero everywhere never ends (C45_zero_density_refuted). With several limits the thinning keeps the first accepted rows, so it is unfair to later limits (C45_many_limits_refuted)."},
{"property": "C46", "status": "proved", "theorems": ["C46_number", "C46_sum_split", "C46_product", "C60_extended_partial"], "note": "For all trees of sums, products and truncated PDFs whose observables are in the order of their parts, one box of limits, all random outcomes (arbitrary functions that satisfy the stated laws); it fails only where the direct sampling of a PDF fails. Other orders lose events: C59_sum_order_refuted."},
{"property": "C47", "status": "proved", "theorems": ["C47_model_names_unique", "C47_loss_names_unique", "C47_nested_composed_refuted"], "note": "The refuted theorem is a finding: composed parameters nested in composed parameters are not checked."},
{"property": "C48", "status": "proved", "theorems": ["C48_shared_function_same_parameters", "C48_other_arguments_ignored_refuted"], "note": "The refuted theorem shows that nothing but the parameters (and the number of arguments) is part of the key."},
{"property": "C49", "status": "partial", "theorems": ["C49_pandas_round_trip_partial", "C49_weightsname_refuted"], "note": "Needs the name of the weights column not to be an observable; otherwise the observable is overwritten (refuted)."},
{"property": "C50", "status": "proved", "theorems": ["C50_resample_values"], "note": ""},
{"property": "C51", "status": "proved", "theorems": ["C51_order_and_weights"], "note": "For full values."},
{"property": "C52", "status": "proved", "theorems": ["C52_copy_same_values", "C52_offset_kept"], "note": ""},
{"property": "C53", "status": "proved", "theorems": ["C53_autofill_axes", "C53_attach_axes", "C53_attach_obs", "C53_drop"], "note": ""},
{"property": "C54", "status": "partial", "theorems": ["C54_equality", "C54_equality_symmetric_and_hash", "C54_transitive_refuted"], "note": "Everything but transitivity, which is false (refuted): coordinates with observables only and with axes only can both equal a third without being equal."},
{"property": "C55", "status": "proved", "theorems": ["C55_at_limit", "C55_no_limits", "C55_clipped_is_at_limit"], "note": "finite values; the widths are exact rationals"},
{"property": "C56", "status": "proved", "theorems": ["C56_graph_mode"], "note": "for every state in which the seven standard kinds are registered, as at import"},
{"property": "C57", "status": "partial", "theorems": ["C57_normalization", "C57_pdf", "C57_ext_integrate", "C57_ext_pdf", "C57_not_extended", "C57_log_pdf_partial", "C57_ext_log_pdf_partial", "C57_log_pdf_refuted"], "note": "log_pdf and ext_log_pdf hold if the implemented _pdf, _log_pdf and _ext_log_pdf support the norm; for a _pdf without that support (Crystal Ball shapes, polynomials, templates) log_pdf subtracts the normalisation instead of its logarithm and is wrong everywhere (refuted)."},
{"property": "C58", "status": "partial", "theorems": ["C58_integrable", "C58_behaves", "C58_analytic", "C58_analytic_exists", "C58_extended", "C58_init", "C58_outside_space_refuted"], "note": "Proved if the limits lie within the space of the PDF, given an exact numeric integration. False otherwise: in eager mode the integral over the space is taken over the whole of the limits, also outside the space, and differs from the integral in a graph (refuted)."},
{"property": "C59", "status": "partial", "theorems": ["C59_columns_partial", "C59_truncated", "C59_sum_order_refuted", "C59_product_order_refuted"], "note": "Proved if the observables of sums and products are in the order in which their parts produce them. False otherwise: components of a sum in different orders, a product with its obs given in another order, or with overlapping factors before others have columns under wrong names and lose events (refuted)."},
{"property": "C60", "status": "partial", "theorems": ["C60_extended_partial", "C60_needs_number", "C60_any_text", "C60_truncated_refuted", "C60_own_yield_refuted", "C60_product_refuted", "C60_mixed_refuted"], "note": "Proved for PDFs with a yield whose parts have none, and for sums (nested too) whose yield is the sum of their parts' yields. False for an extended truncated PDF of an extended PDF (sampled untruncated with the unscaled yield), a sum with its own yield over extended PDFs, an extended product of extended PDFs (observables mixed in one column), and partly extended parts (AssertionError)."},
{"property": "C61", "status": "proved", "theorems": ["C61_legendre", "C61_chebyshev", "C61_chebyshev2", "C61_hermite", "C61_laguerre", "C61_bernstein", "C61_bernstein_nonnegative", "C61_unscaled"], "note": "The polynomials are specified independently: cosines and sines of multiples for Chebyshev, the differential equation and one value for Legendre and Laguerre, the derivatives of exp(-x^2) for Hermite, binomials for Bernstein."},
{"property": "C62", "status": "partial", "theorems": ["C62_block_partial", "C62_nested_partial", "C62_refused_entry_refuted", "C62_stale_values_refuted"], "note": "Proved for all nestings, exceptions and handlers if the limits stay and the values of the results are accepted. False otherwise (refuted): a refused value leaves the block unentered with the first parameters changed; a failed inner use makes an outer block restore other values."},
{"property": "C63", "status": "partial", "theorems": ["C63_start_partial", "C63_init_wins_refuted", "C63_missing_refuted"], "note": "Proved if there are start values or an init, but not both. With both, the values of init win although the start values are set first (refuted), and an init without one of the minimised parameters raises (refuted)."},
{"property": "C64", "status": "partial", "theorems": ["C64_covariance_matrix_symmetric", "C64_requests_agree", "C64_matrix_is_dictionary", "C64_matrices_agree", "C64_weight_corrected", "C64_matrix_dict_round_trip", "C64_correlation", "C64_values_kept", "C64_approx_same_order", "C64_weightcorr_in_cache_refuted", "C64_effsize_refuted", "C64_covariance_at_current_values_refuted", "C64_approx_order_refuted"], "note": "As stated for every method, request and history (square root and the methods themselves are arbitrary functions; a method is assumed to return a symmetric dictionary). Partial because (refuted): a second request with another weight correction gets the first one's answer; the effsize correction does nothing and raises if a data set has no weights; the covariance is that of the current parameter values, not of the minimum; the approximate covariance uses the wrong order if the approximation has its own."},
{"property": "C65", "status": "partial", "theorems": ["C65_hesse", "C65_errors", "C65_entries_in_any_history", "C65_name_lost_after_new_minimum", "C65_level_drift_refuted", "C65_name_used_by_errors_refuted", "C65_sigma_refuted"], "note": "What is stored, returned and left unchanged holds for every call that returns, the rule for a name in every history. Partial because (refuted): the tolerance on levels lets an entry drift to another level in several calls; hesse over a name used by errors is a KeyError; errors(sigma=s) scans up to s instead of s**2; after a new minimum a name can never be used again."},
{"property": "C66", "status": "partial", "theorems": ["C66_values_by_any_key", "C66_params_same_after_freeze", "C66_membership", "C66_covariance_same_after_freeze", "C66_gradient_in_requested_order", "C66_values_after_freeze_refuted", "C66_covariance_by_name_refuted"], "note": "Parameter entries, covariances and gradients as stated. False (refuted): result.values of a frozen result can not be read by name (TypeError), 'in' raises RuntimeError; covariances asked for by name before freezing are nan."},
{"property": "C67", "status": "partial", "theorems": ["C67_errors_are_crossings", "C67_right_side", "C67_accepted_first_or_fifth", "C67_warned_errors", "C67_new_minimum", "C67_start_values", "C67_at_limit_always_fails", "C67_wrong_side_refuted", "C67_not_profiled_refuted", "C67_beyond_limit_refuted", "C67_level_lost_refuted", "C67_values_after_exception_refuted"], "note": "For every loss, root finder (any adaptive sequence of requests) and minimiser, for errors given without a warning; the sign needs the minimum to be one and the fit value inside its limits. False otherwise (refuted): a lower error can be positive if the loss is far below the minimum on the other side; the other parameters need not be at their minimum (no profile); an error can lead out of the limits; after a new minimum sigma is forgotten; an exception leaves the parameters where they are. With a correlated parameter at a limit there are never any errors (C67_at_limit_always_fails)."},
{"property": "C68", "status": "partial", "theorems": ["C68_views_agree", "C68_values", "C68_histogram", "C68_template", "C68_modifier", "C68_sum", "C68_sum_extended", "C68_morphing", "C68_from_unbinned", "C68_events", "C68_axes_partial", "C68_log_pdf", "C68_sample", "C68_unnormalized_only_refuted", "C68_density_only_refuted", "C68_histogram_ext_norm_refuted", "C68_template_norm_refuted", "C68_modifier_not_extended_refuted", "C68_modifier_norm_refuted", "C68_sum_yield_refuted", "C68_sum_yield_not_extended_refuted", "C68_morphing_yields_refuted", "C68_from_unbinned_yield_refuted", "C68_other_binning_refuted", "C68_own_log_pdf_refuted", "C68_own_sample_refuted", "C68_sample_limits_refuted"], "note": "Any number of dimensions, any norm box, any consistent subset of methods. False (refuted): classes that implement only the unnormalised or the density method; the extended density of a histogram or template for another norm; a template with a norm of its own; the contents of a modifier for another norm, and a modifier of a PDF that is not extended; a yield given to a sum (ignored, or an error) or to a PDF binned from an extended one; morphing of histograms with different yields; the binning of x is ignored; an own log_pdf or sample method."},
{"property": "C69", "status": "partial", "theorems": ["C69_gaussian_independent", "C69_order", "C69_gaussian_correlated_partial", "C69_minimum", "C69_wrong_number", "C69_contradictory", "C69_poisson_value", "C69_lognormal_value", "C69_lognormal_minimum", "C69_gaussian_array", "C69_sample_columns", "C69_size_not_checked_refuted", "C69_no_uncertainty_refuted", "C69_upper_triangle_ignored_refuted", "C69_poisson_swapped_refuted", "C69_lognormal_not_at_observation_refuted", "C69_array_refused_refuted"], "note": "Gaussian constraints as stated; for correlated uncertainties the part that depends on the parameters is proved exactly, the normalising number is only shown to depend on the matrix alone. False (refuted): the Poisson constraint has rate and count swapped; the log-normal one is smallest at exp(observation - uncertainty^2); uncertainties of another size are noticed only when the value is asked for; the upper triangle of a covariance is ignored; arrays are refused by Poisson and log-normal constraints."},
{"property": "C70", "status": "partial", "theorems": ["C70_value_in_order", "C70_value_by_name", "C70_dict_order_irrelevant", "C70_value_all_at_once", "C70_ambiguous_refused", "C70_dependencies_partial", "C70_value_depends_on_params_partial", "C70_cartesian", "C70_polar_partial", "C70_conjugate", "C70_existing_returned", "C70_numbers_converted", "C70_converted_exactly_if", "C70_automatic_names", "C70_single_entry_dict_refused_refuted", "C70_dependencies_forgotten_refuted", "C70_conjugate_without_dependencies_refuted", "C70_polar_not_returned_refuted", "C70_given_name_ignored_refuted"], "note": "False (refuted): a list of parameters given with a function without arguments is forgotten, so the conjugate of a complex parameter depends on nothing; a dict with one entry is not passed as a dict; a negative modulus or an angle outside (-pi, pi] does not come back; the name given for a function is ignored."},
{"property": "C71", "status": "partial", "theorems": ["C71_crystalball_shape", "C71_crystalball_mirrored", "C71_double_shape", "C71_generalized_shape", "C71_gaussexptail_shape", "C71_gaussexptail_mirrored", "C71_generalized_gaussexptail_shape", "C71_crystalball_integral", "C71_double_integral", "C71_generalized_integral", "C71_gaussexptail_integral", "C71_generalized_gaussexptail_integral", "C71_crystalball_continuous", "C71_double_continuous", "C71_generalized_continuous", "C71_gaussexptail_continuous", "C71_generalized_gaussexptail_continuous", "C71_crystalball_normalised", "C71_double_normalised", "C71_generalized_normalised", "C71_gaussexptail_normalised", "C71_generalized_gaussexptail_normalised", "C71_crystalball_additive", "C71_crystalball_shape_negative_alpha_refuted", "C71_gaussexptail_zero_alpha_refuted", "C71_negative_sigma_refuted", "C71_exponent_near_one_refuted"], "note": "Over the reals, as stated, for exponents that are one or at least 1e-5 away from one. In between the integral is that of another function (refuted). Also refuted, outside of the statement: the documented formula for alpha < 0 or = 0, the integral for sigma < 0."},
{"property": "C72", "status": "partial", "theorems": ["C72_pdf", "C72_log_pdf", "C72_ext_pdf", "C72_integrate", "C72_normalised", "C72_no_overflow", "C72_unnormalised", "C72_unnormalised_partial", "C72_unnormalised_after_error_refuted", "C72_lambda_zero_refuted"], "note": "Normalised values as stated for lambda not zero, over the reals. False (refuted): after a call that raised an error, values that are not normalised are off by a factor, because the shift is not restored; for lambda = 0 everything normalised is NaN."},
{"property": "C73", "status": "partial", "theorems": ["C73_never_worse", "C73_valid", "C73_step_chosen", "C73_gives_up_only_if_stuck", "C73_criterion_of_last_step", "C73_number_of_evaluations", "C73_convex_takes_a_step", "C73_criterion_is_distance", "C73_criterion_uphill", "C73_damped_positive", "C73_damped_entries", "C73_downhill", "C73_settings", "C73_refused", "C73_result_is_loss_partial", "C73_first_step_refuted", "C73_valid_within_tolerance_refuted", "C73_constant_irrelevant_refuted", "C73_result_is_loss_refuted"], "note": "For every loss whose values the evaluator tells (no NaN replaced by the strategy). False (refuted): from a point where the loss bends downwards an AssertionError; the criterion uses the gradient before the last step and the damped Hessian, so a valid result can be far outside of the tolerance; a constant added to the loss changes the result; with the default strategy a valid result can be at a point where the loss is NaN."},
{"property": "C74", "status": "partial", "theorems": ["C74_made", "C74_settings", "C74_refused", "C74_interpolation", "C74_grid", "C74_values", "C74_squeeze", "C74_law_of_sum_partial", "C74_smearing_partial", "C74_linear_interpolation", "C74_not_negative", "C74_linear_in_func", "C74_covered_partial", "C74_one_sided_constant", "C74_sample", "C74_sample_inside", "C74_sample_range_partial", "C74_convolution_refuted", "C74_smearing_refuted", "C74_covered_refuted", "C74_default_points_refuted", "C74_sample_range_refuted", "C74_sample_limits_kernel_refuted"], "note": "The values are exactly the discrete convolution with a kernel squeezed towards its centre, by nf (nk - 1) / ((nf - 1) nk), because the two grids have different spacings; so it is not the convolution with the kernel and variances do not add up (refuted). For kernels that are not symmetric around zero the grid and the sample miss a part of the func (refuted): the density is constant over a part of the limits, events there are never sampled. The default number of points is 51, not 100 as documented (refuted). The spline is not modelled, only the points it is given."},
{"property": "C75", "status": "partial", "theorems": ["C75_density_partial", "C75_density_without_norm", "C75_ext_density_partial", "C75_integral_partial", "C75_normalised_partial", "C75_ext_integral", "C75_yield_argument", "C75_norm_argument", "C75_histogram", "C75_sample_partial", "C75_own_norm_refuted", "C75_own_yield_refuted", "C75_yield_of_plain_refuted", "C75_several_limits_refuted", "C75_order_refuted", "C75_sample_limits_refuted", "C75_sample_extended_refuted", "C75_sample_order_refuted", "C75_spline_order_refuted"], "note": "As stated if observables (and their order), norm and yield are those of the binned PDF, and for samples over the whole range. False (refuted): an own norm or range is ignored, so the integral over it is not one; the extended density ignores an own yield, and raises if the binned PDF has none; integrals over several limits raise; with the observables in another order integrals are wrong and the columns of samples have the wrong names; samples in limits have too few events; samples without a number raise for extended PDFs; the order of a spline is ignored by the density."},
{"property": "C76", "status": "partial", "theorems": ["C76_exact", "C76_local", "C76_data_object", "C76_order", "C76_weights_scale", "C76_copies", "C76_normalised", "C76_nonnegative", "C76_padding", "C76_padding_local", "C76_padding_key", "C76_padding_mass", "C76_padding_symmetric", "C76_padding_inside", "C76_interpolation", "C76_grid_range", "C76_grid", "C76_grid_normalised", "C76_convolution", "C76_convolution_whole", "C76_convolution_between", "C76_rules", "C76_rule_units", "C76_units", "C76_unknown_name", "C76_adaptive_ignores_weights", "C76_fft_method", "C76_documented_rule_refuted", "C76_unit_weights_refuted", "C76_bandwidth_copies_refuted", "C76_heavy_event_refuted", "C76_padding_outside_refuted", "C76_grid_local_padding_refuted", "C76_equal_events_refuted", "C76_simple_binning_refuted", "C76_convolution_outside_refuted", "C76_default_support_refuted"], "note": "The densities are as stated, for any kernel. The convolution cuts the kernel off at the support times the bandwidth. False (refuted): the rules of thumb do not divide the distance of the quartiles by 1.34 as documented; weights of one give another bandwidth than no weights, and weights do not stand for copies there; a largest event with more than half of the weight makes the default bandwidth fail; events outside of the limits are mirrored into them; bandwidths for each point of a grid fail with padding; equal events fail on a grid; simple binning does not use the nearest point; the convolution is constant outside of the grid; its default support depends on the units of the space; all its methods but one fail (C76_fft_method); adaptive bandwidths ignore the shape that the weights give. Not modelled: KDE1DimISJ."},
{"property": "C77", "status": "partial", "theorems": ["C77_result_valid", "C77_result_defaults", "C77_valid_at_limit", "C77_close", "C77_result_status_refuted", "C77_scipy_runs", "C77_scipy_valid", "C77_scipy_result", "C77_scipy_values_partial", "C77_scipy_message", "C77_scipy_values_refuted", "C77_scipy_start_in_limits_refuted", "C77_scipy_stuck", "C77_scipy_options", "C77_scipy_maxiter", "C77_scipy_reuse_partial", "C77_scipy_reuse_refuted", "C77_scipy_trust_radius", "C77_nlopt_runs", "C77_nlopt_valid", "C77_nlopt_result", "C77_nlopt_message_of_valid", "C77_nlopt_restart_has_no_effect", "C77_nlopt_message_refuted", "C77_nlopt_fmin_refuted", "C77_ipopt_runs", "C77_ipopt_valid", "C77_ipopt_message", "C77_ipopt_fmin", "C77_ipopt_status_refuted", "C77_minuit_valid", "C77_minuit_runs", "C77_minuit_params_refuted", "C77_minuit_message_refuted", "C77_minuit_maxiter_refuted", "C77_minuit_maxiter", "C77_tol_factor", "C77_tolerances_shrink", "C77_first_tolerances", "C77_first_tolerances_nlopt", "C77_nan_tolerances", "C77_tolerances_stay_numbers_refuted"], "note": "For every behaviour of the wrapped minimisers. False (refuted): the status of a result that is invalid because of a limit says success; the shift for another SciPy run is added to the reported values as well and can leave the limits; options written by an initialiser stay for the next fit, the trust radius given by a user is not used (C77_scipy_trust_radius); the restart of NLopt after an error has no effect, its message can be empty or the loss missing; Ipopt's failures are not looked at; after twenty migrads without success the parameters are not set and the message is empty; maxiter limits each migrad, not the fit; a NaN criterion makes all later tolerances NaN."},
{"property": "C78", "status": "partial", "theorems": ["C78_made", "C78_observables", "C78_params", "C78_density_partial", "C78_density_outside", "C78_density_keeps_parameters", "C78_density_independent", "C78_normalised", "C78_integrals_partial", "C78_integrals_change_parameters", "C78_sample_partial", "C78_sample_number", "C78_density_refuted", "C78_missing_observable_refuted", "C78_parameter_at_limit_refuted", "C78_error_keeps_parameters_refuted", "C78_integrals_keep_parameters_refuted", "C78_sample_keeps_parameters_refuted", "C78_integral_without_data_fails", "C78_sample_without_data_fails", "C78_sample_two_observables_refuted", "C78_sample_full_data_refuted", "C78_other_observables_ignored", "C78_ranges"], "note": "Exactly as stated for values within the limits of the parameters, complete data and, in compiled functions, conditional parameters not at their limits. False (refuted): values outside of the limits count as the limit; data without an observable of the PDF gives values of another column; a conditional parameter at its limit makes a compiled evaluation fail, an error in one leaves parameters changed; integrals and samples leave the values of the last event in the parameters, and need data (AttributeError otherwise); samples work only for one observable and for data with the conditions only; further observables of a parameter are ignored."},
{"property": "C79", "status": "partial", "theorems": ["C79_round_trip_partial", "C79_reuse_partial", "C79_deterministic_partial", "C79_load_again", "C79_argument", "C79_fixed_refuted", "C79_label_refuted", "C79_constraint_refuted", "C79_clash_refuted", "C79_equal_names_refuted", "C79_merged_refuted"], "note": "As stated for models with one parameter per name, distinct names of the objects that are not names of parameters, floating parameters, composed ones without a label, and constraints on parameters of the PDFs. False (refuted): a fixed parameter is loaded as a constant; labels of composed parameters are lost; parameters only in constraints are not dumped; a PDF with the name of a parameter can not be loaded; PDFs of equal names are named after addresses in memory and can be lost; parameters of equal names are merged. Loading changes its argument (C79_argument). What the constructors do with what is loaded is not modelled."},
{"property": "C80", "status": "partial", "theorems": ["C80_gauss", "C80_cauchy", "C80_lognormal", "C80_chisquared", "C80_studentt", "C80_bifurgauss", "C80_gamma", "C80_johnsonsu", "C80_generalizedgauss", "C80_uniform", "C80_qgauss_partial", "C80_qgauss_refuted", "C80_q3_refuted", "C80_q_refused", "C80_integral", "C80_infinite_refuted", "C80_sample_law", "C80_sample_fallback", "C80_share", "C80_sample_one", "C80_sample_several", "C80_fractions", "C80_several_law", "C80_uniform_cdf", "C80_cauchy_cdf", "C80_no_mass_refuted", "C80_several_infinite_refuted"], "note": "Shapes over the reals, with the special functions (Gamma function, Beta function) as any factor that does not depend on x. Integral over finite limits, sample over one limit, finite or not, or over several finite limits, for every distribution with a proper cumulative distribution function and quantile; shown for Uniform and Cauchy. False (refuted): QGauss is wider than documented by the square root of two (C80_qgauss_partial has the shape that it has), and accepts q = 3; integrals over infinite limits raise an error instead of using the cumulative distribution, and so do samples over several limits with an infinite one; in limits without probability the events are outside of them."},
{"property": "C81", "status": "partial", "theorems": ["C81_value_partial", "C81_value_now", "C81_observables", "C81_columns", "C81_sum_many", "C81_defined", "C81_refused", "C81_pdfs", "C81_params_partial", "C81_depends_partial", "C81_params_argument_partial", "C81_params_argument_refused", "C81_as_pdf", "C81_as_func", "C81_as_pdf_params_partial", "C81_frozen_refuted", "C81_params_refuted", "C81_name_clash_refuted", "C81_reserved_name_refuted", "C81_add_number_refuted", "C81_as_pdf_params_refuted"], "note": "Values for every expression; the parameters as stated if a function that is multiplied by a parameter or number is not itself a sum or product of functions and has no argument with the name of the parameter. False (refuted): the product of two parameters is a number, so a function multiplied by it does not follow them; a parameter times a sum or product of functions does not know the parameters of these, and they can not be given by name; the same for the PDF of a sum; a parameter with the name of an argument is forgotten, one with the name of an argument of the constructor is an error; a function and a number can not be added."},
{"property": "C82", "status": "partial", "theorems": ["C82_parameters_unchanged", "C82_error_restores_given_partial", "C82_error_restores_refuted", "C82_paramvals", "C82_numerical_partial", "C82_central_exact_partial", "C82_numerical_at_limit_refuted", "C82_numgrad_honoured", "C82_value_gradient_numgrad_refuted", "C82_one_call_partial", "C82_default_hessian_refuted", "C82_given_functions", "C82_given_gradient_refuted", "C82_simple_zfit_refuted", "C82_refused"], "note": "For every loss, every strategy of the numerical procedure (a tree of questions) and every automatic derivative (an oracle). False (refuted): after an exception the parameters are where the numerical procedure had put them; at a limit the numerical gradient is that of the clipped loss, half of the derivative; value_gradient ignores numgrad; hessian and value_gradient_hessian have different defaults; value_gradient_hessian ignores a given gradient; gradient='zfit' of a SimpleLoss always fails. Exactness is shown for central differences of polynomials of degree two."},
{"property": "C83", "status": "partial", "theorems": ["C83_sum_partial", "C83_sum_errordef", "C83_sum_names_refuted", "C83_sum_composed_refuted", "C83_sum_commutes_refuted", "C83_given_values", "C83_given_unknown", "C83_value", "C83_errordef", "C83_create_new_partial", "C83_create_new_refuted", "C83_from_any"], "note": "Sums as stated if all parameters are independent and have names of exactly two characters. False (refuted): with any other name the value of a sum is an error (the names are taken apart like pairs); with composed parameters it is an error or silently wrong; another loss plus a SimpleLoss is refused; create_new fails if the function has an errordef, and drops given derivatives."},
{"property": "C84", "status": "partial", "theorems": ["C84_copy_partial", "C84_create_extended_partial", "C84_sum_extended", "C84_already_extended", "C84_override", "C84_fails_refuted", "C84_poly_refuted", "C84_coeff0_refuted", "C84_sum_refuted", "C84_arguments_refuted", "C84_lost_refuted"], "note": "As stated, but for label, space and yield, for classes with one argument per parameter, scaled polynomials normalised over their space, products, simple PDFs and sums that are extended or with fractions that add up to one; for every shape and integral. False (refuted): the copy has no yield, the name as label and the normalisation range as space; Bernstein polynomials, kernel density estimates, truncated, convolved, cached, unbinned, spline and conditional PDFs cannot be copied or extended; a polynomial without scaling is scaled in the copy, and one with a smaller normalisation range changes its shape; fractions that do not add up to one change; parameters of simple functors and further arguments of wrapped distributions are lost; a first coefficient given as parameter is frozen."},
{"property": "C85", "status": "partial", "theorems": ["C85_partial_partial", "C85_order", "C85_marginal", "C85_projection", "C85_projection_arguments", "C85_straddling_refuted", "C85_limits_refuted", "C85_data_refuted", "C85_left_out_refuted"], "note": "As stated for one limit and the default normalisation range (that of the factors is that of the product), and with any range or none if no factor of a product has observables both in the limits and in the data; projections always. False (refuted): such a factor is normalised over its own range with norm=False and with another range; several limits are an error for a function and all combinations for a product; an observable of the data that is also in the limits is not integrated; a projection with limits and observables that leave one out fails when it is evaluated."},
{"property": "C86", "status": "partial", "theorems": ["C86_through", "C86_regularised", "C86_affine", "C86_linear", "C86_morph_at_histogram", "C86_total", "C86_three", "C86_determined_three", "C86_splined", "C86_single_refuted", "C86_negative_refuted", "C86_order_refuted"], "note": "Over the reals, for every solver that gives solutions only. That the points determine the spline is a hypothesis; for morphing with three histograms it is shown to hold exactly if the outermost values of alpha are more than 0.00001 apart, and then the morphed histogram exists and has a closed form. False (refuted): one histogram alone can not be morphed; between positive contents the morphed content can be negative; a splined density ignores the order given to it, the extended density does not."},
{"property": "C87", "status": "partial", "theorems": ["C87_root", "C87_increasing", "C87_lipschitz", "C87_inside", "C87_validate", "C87_batch", "C87_no_change", "C87_converged_refuted", "C87_isj", "C87_isj_no_change", "C87_isj_refuted", "C87_support", "C87_support_wide"], "note": "Exact rational numbers, every function with finite values. The number of turns that is shown to be enough is four times the distance of the points in units of the absolute tolerance; the bound that is quadratic in the logarithm is not shown. False (refuted): without a change of sign the result is always the root 0 with the value 0, converged, even if 0 is not between the points; so Improved Sheather Jones never tries a second bracket but returns the bandwidth 0, and a wide kernel gets the support 1/1000."},
{"property": "C88", "status": "partial", "theorems": ["C88_created", "C88_functions", "C88_update", "C88_accepted", "C88_resample", "C88_resample_arguments", "C88_history", "C88_order", "C88_sample", "C88_sample_bins", "C88_number", "C88_create", "C88_create_params", "C88_fixed", "C88_hash", "C88_with_obs", "C88_unknown", "C88_limits", "C88_failed_refuted", "C88_collision_refuted", "C88_bins_refuted", "C88_order_refuted", "C88_with_obs_refuted", "C88_hashing_refuted", "C88_own_sample_refuted", "C88_same_number_refuted", "C88_create_params_refuted", "C88_fixed_list_refuted", "C88_yield_refuted", "C88_poisson_variances_refuted"], "note": "As stated up to the last sentence, for every multinomial distribution (contents for the same bins with the right sum). False (refuted): an update that raises because of variances has replaced the contents and kept the old hash; there are only 4096 hashes, so contents collide for every digest; other numbers of bins are accepted; a histogram in another order is not put into the right one; without hashing no sampler can be made; the list of fixed parameters does not matter; values at the creation are refused unless the old argument is None; the number of an extended PDF is drawn once, for the present yield; an implemented _sample is dropped; variances=True are square roots."},
{"property": "C89", "status": "partial", "theorems": ["C89_loads", "C89_load", "C89_load_content", "C89_dumps", "C89_dump", "C89_written", "C89_before", "C89_attempts_partial", "C89_stream", "C89_round_trip", "C89_negative", "C89_ipyopt", "C89_endless_refuted", "C89_dropped_refuted", "C89_partial_write_refuted", "C89_overwritten_refuted", "C89_unbound_refuted"], "note": "As stated up to the last sentence, for every behaviour of dill. The number of attempts is limited only if no dictionary changes its size (partial). False (refuted): otherwise dumping is repeated until python allows no more recursion, whatever max_retries is; dumps throws verified bytes away if an earlier verification has failed, and can raise then; without verification the file can hold the rest of a failed attempt before the object; a dump into a file that can not be read leaves the position where it began, so the next dump overwrites it; an unsupported operation other than reading ends in an UnboundLocalError."},
{"property": "C90", "status": "partial", "theorems": ["C90_reproducible", "C90_replay", "C90_found", "C90_own", "C90_true", "C90_with_replacement", "C90_independent_refuted", "C90_poisson_refuted", "C90_zfit_only_refuted"], "note": "As stated up to the last sentence, for any generators. False (refuted): without numpy the backend gets the seed that numpy would have had; zfit.sample.poisson raises whatever it is called with; multinomial counts and Poisson numbers come from the generator of the backend, so the zfit seed alone is not enough."},
{"property": "C91", "status": "partial", "theorems": ["C91_kept", "C91_update", "C91_auto", "C91_created", "C91_ready", "C91_use", "C91_eager", "C91_number_refuted", "C91_default_refuted", "C91_failed_refuted", "C91_zero_refuted", "C91_adapt_refuted", "C91_compiled_refuted", "C91_compiled_partial"], "note": "As stated up to the last sentence, with any functions for the logarithms. New options are used by the next integral if it is not compiled, or not yet (partial). False (refuted): every number of draws_per_dim raises UnboundLocalError although it has been set then; a refused tolerance comes after other options have changed; the tolerance zero is accepted but no 'auto' works with it; 'auto' does not follow the tolerance; a compiled integral keeps the options of its first call."},
{"property": "C92", "status": "partial", "theorems": ["C92_curve", "C92_range", "C92_errors", "C92_components_partial", "C92_components_plain", "C92_yield_refuted", "C92_components_refuted", "C92_component_error", "C92_labels_partial", "C92_labels_refuted", "C92_function_refuted", "C92_function", "C92_plotter_partial", "C92_defaults_refuted", "C92_custom_refuted"], "note": "As stated up to the last sentence. False (refuted): the components of a sum of extended PDFs are drawn with their yield times their fraction, so their sum is below the sum; those of a sum with its own yield are drawn without it; with a dictionary plotkwargs, and always with plot_sumpdf_components_pdfV1, all components have the label of the first, which is written into the dictionary of the user; the defaults of a plotter replace arguments that are given; the plotting function given to it is never called."},
{"property": "C93", "status": "partial", "theorems": ["C93_created", "C93_history", "C93_given", "C93_inverse", "C93_invert_refuted", "C93_inconsistent_refuted", "C93_edm_positive", "C93_edm_same", "C93_edm_definite", "C93_edm_singular", "C93_edm_singular_refuted", "C93_converged", "C93_not_converged"], "note": "As stated, over any vectors and matrices with an inverse that may not exist. False (refuted): without inverting, the answer depends on earlier requests with inverting; two matrices that are given are not compared; if the Hessian that the minimiser gave is singular the criterion raises LinAlgError instead of giving a large number."},
{"property": "C94", "status": "partial", "theorems": ["C94_converted", "C94_meaning", "C94_kept", "C94_again", "C94_single", "C94_left_alone_refuted", "C94_non_containers_refuted", "C94_independent_refuted"], "note": "As stated up to the last sentence, for any class hierarchy. False (refuted): a list of types given as non_containers is extended in place by each call; a value of the container's own type is taken apart even if its type is in this list; a container of the right type is returned itself, so that later changes are shared."},
{"property": "C95", "status": "partial", "theorems": ["C95_axes", "C95_accepted", "C95_limits_partial", "C95_limits_refuted", "C95_numbers", "C95_with_obs", "C95_subspace_partial", "C95_subspace_refuted", "C95_with_axes_partial", "C95_with_axes_refuted", "C95_combine_partial", "C95_mixed", "C95_combine_refuted", "C95_equal_partial", "C95_equal_refuted", "C95_cover_refuted"], "note": "As stated for spaces with observables and rectangular limits, up to: without limits and with the observables in another order than the axes the limits are attached to the wrong observables; some of the axes only can not be taken; get_subspace loses the bins; spaces with different bins for an observable are combined to the bins of the first one; a space with bins is not equal to itself in another order; new limits leave the bins as they are (all refuted)."},
{"property": "C96", "status": "partial", "theorems": ["C96_from_hist", "C96_refused", "C96_round_trip_partial", "C96_hist_and_back", "C96_round_trip_refuted", "C96_round_trip_numbers", "C96_from_tensor", "C96_from_tensor_accepted", "C96_poisson_refuted", "C96_convert", "C96_convert_taken"], "note": "As stated for data with variances whose limits are the outer edges, for any square root. False (refuted): data without variances have NaN as variances after the way to hist and back; limits other than the outer edges are lost; with variances=True the variances are the square roots of the counts."},
{"property": "C97", "status": "partial", "theorems": ["C97_created", "C97_history", "C97_single", "C97_combine_partial", "C97_combine_last", "C97_combine_refuted", "C97_dropped_refuted", "C97_axes_only"], "note": "As stated for spaces with observables up to the last sentence; a combination shows the common label, or that of one of the spaces (partial). False (refuted): in a combination the last space wins, even one made without labels; labels are lost if the observables are taken away and given again, and such a space with axes only can not be combined with any other (ValueError)."},
{"property": "C98", "status": "partial", "theorems": ["C98_once_partial", "C98_changing_refuted", "C98_given", "C98_first", "C98_separate", "C98_read_refuted"], "note": "As stated for all kinds of warnings but those of features that are going to change. False (refuted): the latter are given at every occasion, or never after a warning of another kind with the same identifier; a switch that is not listed in the settings is off after it has been read."},
{"property": "C99", "status": "partial", "theorems": ["C99_screen", "C99_file", "C99_later", "C99_name", "C99_again_refuted", "C99_independent_refuted", "C99_zero_refuted"], "note": "As stated for the screen, for the first file and for names. False (refuted): with the same file again, a text raises AttributeError and a Path is added once more, so that lines are written twice; a call for the level of the screen sets that of the file to WARNING; a refused call has changed the level of the screen; level 0 shows nothing below WARNING, so the two theorems about levels ask for positive ones."}
]}
