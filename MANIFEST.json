{
 "claims": [
  {
   "property": "C01",
   "status": "proved",
   "theorems": [
    "C01_cached_reads_are_fresh",
    "C01_caching_never_changes_results"
   ],
   "note": "Every read of every history is fresh provided inputs only change for computations whose result is not held (the property's own proviso); C01_stale_without_invalidation shows the proviso is needed. The object-specific invalidation discipline is C18-C23, C58-C60."
  },
  {
   "property": "C02",
   "status": "partial",
   "theorems": [
    "C02_level_bound_partial",
    "C02_cleaning_restores_bound_partial",
    "C02_level_bound_refuted",
    "C02_level_bound_forced_refuted"
   ],
   "note": "REFUTED as stated by C02_level_bound_refuted (lowering the level keeps higher entries) and C02_level_bound_forced_refuted (sample distances are force-stored at level total). Proved for histories without forced writes and without lowering, and after every cleaning."
  },
  {
   "property": "C03",
   "status": "proved",
   "theorems": [
    "C03_clean_exact",
    "C03_clean_none_empties"
   ],
   "note": "Exact content after cleaning, for every content with numeric levels."
  },
  {
   "property": "C04",
   "status": "proved",
   "theorems": [
    "C04_reset_exact",
    "C04_full_reset_empties"
   ],
   "note": "Exact content after every kind of reset."
  },
  {
   "property": "C05",
   "status": "partial",
   "theorems": [
    "C05_recursive_reset_partial",
    "C05_recursive_reset_keeps_persisting_partial",
    "C05_nonrecursive_reset_spares_children",
    "C05_default_reset_refuted",
    "C05_plain_module_in_between_refuted"
   ],
   "note": "REFUTED in part: reset() does not recurse by default although documented (C05_default_reset_refuted) and recursion stops at plain torch modules (C05_plain_module_in_between_refuted). Proved: recursive reset on every hierarchy of caching modules, and non-recursive reset spares all descendants."
  },
  {
   "property": "C06",
   "status": "partial",
   "theorems": [
    "C06_remove_list_exact",
    "C06_remove_name_refuted",
    "C06_remove_name_exactly",
    "C06_remove_name_removes_others_refuted"
   ],
   "note": "REFUTED for a single name: a string is iterated character by character, so no name of two or more characters is ever removed (C06_remove_name_refuted, all caches and names) and unrelated one-character entries may be removed. Proved for lists of names."
  },
  {
   "property": "C07",
   "status": "partial",
   "theorems": [
    "C07_destroy_hit_refuted",
    "C07_destroy_miss_refuted",
    "C07_exactly",
    "C07_one_letter_partial"
   ],
   "note": "REFUTED on both paths for every cache content: a hit returns without removing, and a miss removes by characters. Exact effect in C07_exactly; proved for names of one letter that are not stored (C07_one_letter_partial)."
  },
  {
   "property": "C08",
   "status": "partial",
   "theorems": [
    "C08_known_levels_partial",
    "C08_unknown_levels_refuted"
   ],
   "note": "REFUTED for every unknown name (accepted at assignment, breaks later reads). Proved: the five known names are set and read back."
  },
  {
   "property": "C09",
   "status": "partial",
   "theorems": [
    "C09_level_change_leaves_transforms",
    "C09_level_propagation_refuted",
    "C09_exactly_partial"
   ],
   "note": "REFUTED by C09_level_propagation_refuted: the setter never touches a held transform (C09_level_change_leaves_transforms, all contents); exact condition C09_exactly_partial"
  },
  {
   "property": "C10",
   "status": "partial",
   "theorems": [
    "C10_porting_counts",
    "C10_idempotent_porting_partial",
    "C10_porting_once_refuted",
    "C10_porting_transforms_refuted"
   ],
   "note": "REFUTED: the function is applied 2^d times at depth d (C10_porting_counts) and porting never terminates once a transform tree is held (C10_porting_transforms_refuted, all chain lengths and recursion limits). Proved for idempotent functions on trees."
  },
  {
   "property": "C11",
   "status": "proved",
   "theorems": [
    "C11_proportional_selection",
    "C11_whole_proportion",
    "C11_bad_proportion_rejected"
   ],
   "note": "For every permutation, size and rational proportion; the product n*p is exact in the model."
  },
  {
   "property": "C12",
   "status": "proved",
   "theorems": [
    "C12_selection_reaches_descendants",
    "C12_evaluation_selects_everything",
    "C12_uninitialised_in_between_refuted"
   ],
   "note": "On every hierarchy of initialised stochastic modules; C12_uninitialised_in_between_refuted shows that the propagation stops at an uninitialised module, which the statement excludes."
  },
  {
   "property": "C13",
   "status": "partial",
   "theorems": [
    "C13_rejected_request_partial",
    "C13_invalid_indices_refuted",
    "C13_any_indices_refuted"
   ],
   "note": "REFUTED in part: every list of indices is accepted, valid or not (C13_invalid_indices_refuted, C13_any_indices_refuted, all modules). Proved: a rejected request leaves indices and descendants as they were and only drops cache entries."
  },
  {
   "property": "C14",
   "status": "proved",
   "theorems": [
    "C14_update_writes_addressed_rows",
    "C14_update_frame",
    "C14_wrong_count_rejected",
    "C14_valid_update_accepted",
    "C14_empty_sample"
   ],
   "note": "For every sample, index list (with repetitions and negative indices) and value matrix; repeated indices take the last value (torch's CPU behaviour)."
  },
  {
   "property": "C15",
   "status": "partial",
   "theorems": [
    "C15_failed_update_refuted",
    "C15_every_refuted",
    "C15_rejected_update_changes_nothing_partial"
   ],
   "note": "REFUTED by C15_failed_update_refuted, and in every state with a trainable sample without gradient by C15_every_refuted: the sample is written, then the update raises before the cache is reset. Proved: in every other state a rejected update changes nothing."
  },
  {
   "property": "C16",
   "status": "partial",
   "theorems": [
    "C16_shared_sample_refuted",
    "C16_converted_sample_isolated_partial"
   ],
   "note": "REFUTED for float32 tensors and parameters (C16_shared_sample_refuted, every write is seen). Proved for every input that needs conversion."
  },
  {
   "property": "C17",
   "status": "proved",
   "theorems": [
    "C17_dimensions_agree",
    "C17_dimensions_not_reassigned"
   ],
   "note": "Invariant over all histories; good_orth is the documented shape of torch's orthogonal initialisation."
  },
  {
   "property": "C18",
   "status": "proved",
   "theorems": [
    "C18_kernel_matrix_reflects_state",
    "C18_selected_points"
   ],
   "note": "Refinement over all histories (safe_history: documented level names; updates of a trainable sample without gradient are excluded, that case is C15). The numerical functions are arbitrary."
  },
  {
   "property": "C19",
   "status": "partial",
   "theorems": [
    "C19_bandwidth_change_reuses_distances_partial",
    "C19_no_cache_refuted"
   ],
   "note": "REFUTED without cache and with a sample transform (C19_no_cache_refuted). Proved for every history at levels from light on, whenever the distances are held."
  },
  {
   "property": "C20",
   "status": "partial",
   "theorems": [
    "C20_first_reading_partial",
    "C20_bandwidth_frozen",
    "C20_default_bandwidth_refuted"
   ],
   "note": "REFUTED by C20_default_bandwidth_refuted; C20_bandwidth_frozen shows it for all histories: once determined the bandwidth never follows the sample. Proved for the first reading."
  },
  {
   "property": "C21",
   "status": "partial",
   "theorems": [
    "C21_new_weights_refuted",
    "C21_new_weights_out_of_sample_refuted",
    "C21_number_of_weights_refuted",
    "C21_replace_and_reset_partial"
   ],
   "note": "REFUTED as stated by C21_new_weights_refuted, C21_new_weights_out_of_sample_refuted and C21_number_of_weights_refuted; proved fragment: every reading is right when weights are replaced by as many weights and the kernel is reset right after."
  },
  {
   "property": "C22",
   "status": "partial",
   "theorems": [
    "C22_degree_assignment_refuted",
    "C22_number_assignment_refuted",
    "C22_offset_assignment_refuted",
    "C22_feature_map_refuted",
    "C22_readings_follow_parameters_partial"
   ],
   "note": "REFUTED as stated: assigning the degree changes the offset, plain numbers and offsets are rejected, the feature map is stale; proved fragment: readings follow the parameters when the degree is trainable or each assignment is followed by a reset."
  },
  {
   "property": "C23",
   "status": "partial",
   "theorems": [
    "C23_values_partial",
    "C23_any_object_light_partial",
    "C23_modified_object_refuted",
    "C23_modified_object_centered_refuted",
    "C23_modified_object_kernel_refuted"
   ],
   "note": "REFUTED as stated by the C23_modified_object_* theorems (default level); proved fragment: all histories that leave alone the objects of which a value is kept, and all histories at the two lowest levels."
  },
  {
   "property": "C24",
   "status": "partial",
   "theorems": [
    "C24_kinds_partial",
    "C24_outputs_partial",
    "C24_primal_outputs_partial",
    "C24_losses_partial",
    "C24_projected_partial",
    "C24_outputs_refuted",
    "C24_losses_refuted",
    "C24_data_kept_at_normal_refuted",
    "C24_kept_only_partial"
   ],
   "note": "REFUTED as stated by C24_data_kept_at_normal_refuted; proved fragment: statistics are kept at their documented level only, and nothing at none and light; every kind of value read is kept exactly from its documented level on (C24_kinds_partial), with the exception refuted; outputs of a level, of the sample as of new points, and the parts of its loss are kept exactly from normal on (C24_outputs_partial, C24_losses_partial), hence not from heavy or total on as documented (REFUTED by C24_outputs_refuted, C24_losses_refuted)."
  },
  {
   "property": "C25",
   "status": "partial",
   "theorems": [
    "C25_kernel",
    "C25_drops_a_transform_refuted",
    "C25_keeps_repeats_refuted",
    "C25_part_of_the_request_partial",
    "C25_no_repeats_partial",
    "C25_single_repeat_partial",
    "C25_exactly"
   ],
   "note": "REFUTED as stated by C25_drops_a_transform_refuted and C25_keeps_repeats_refuted; proved fragment: the result is an ordered part of the request, exact without repeats, merged for a single repeat; C25_exactly gives the result of every request and C25_kernel what a kernel makes of a request, or of none."
  },
  {
   "property": "C26",
   "status": "proved",
   "theorems": [
    "C26_revert_undoes",
    "C26_revert_undoes_sample",
    "C26_single_point_refuted"
   ],
   "note": "Tree level: apply then revert gives the data back for every chain without a sphere, in every state reached by an admissible history. Real arithmetic. C26_single_point_refuted shows why two points are needed when the variance is used."
  },
  {
   "property": "C27",
   "status": "proved",
   "theorems": [
    "C27_mean_centering",
    "C27_minimum_centering",
    "C27_unit_variance",
    "C27_standardize",
    "C27_minmax_rescaling",
    "C27_minmax_spread"
   ],
   "note": "Statistics of the transformed sample, for any chain ending with the transform and for the named requests."
  },
  {
   "property": "C28",
   "status": "proved",
   "theorems": [
    "C28_unit_vectors",
    "C28_not_reverted"
   ],
   "note": "Rows of the result are the projections of the rows before the sphere; reverting a chain with a sphere raises the bijection error."
  },
  {
   "property": "C29",
   "status": "proved",
   "theorems": [
    "C29_same_matrix",
    "C29_small_norms_refuted"
   ],
   "note": "Both formulations give the same matrix under the guard on norms; C29_small_norms_refuted gives a point below the guard on which they differ."
  },
  {
   "property": "C30",
   "status": "proved",
   "theorems": [
    "C30_sample_sums",
    "C30_new_points_sums",
    "C30_center_twice",
    "C30_center_twice_new_points",
    "C30_columns_refuted"
   ],
   "note": "Row sums for every kernel matrix, column sums for symmetric ones (C30_columns_refuted: false otherwise), rows of out-of-sample matrices, idempotence."
  },
  {
   "property": "C31",
   "status": "partial",
   "theorems": [
    "C31_arguments_unchanged_partial",
    "C31_constructor_unchanged_partial",
    "C31_cosine_refuted",
    "C31_cosine_result_changes_refuted",
    "C31_flags_refuted"
   ],
   "note": "REFUTED as stated by C31_cosine_refuted, C31_cosine_result_changes_refuted and C31_flags_refuted; proved for all kernels without required transform and without legacy flags."
  },
  {
   "property": "C32",
   "status": "proved",
   "theorems": [
    "C32_symmetric_psd",
    "C32_transposed"
   ],
   "note": "Symmetric and positive semi-definite for every explicit kernel after every chain; k(x,y) is the transpose of k(y,x)."
  },
  {
   "property": "C33",
   "status": "proved",
   "theorems": [
    "C33_similarity",
    "C33_decreasing",
    "C33_negative_bandwidth_refuted"
   ],
   "note": "For every positive bandwidth and the three distances that can be evaluated; C33_negative_bandwidth_refuted shows that the accepted negative bandwidths break it."
  },
  {
   "property": "C34",
   "status": "partial",
   "theorems": [
    "C34_normalised_partial",
    "C34_silverman_refuted",
    "C34_silverman_value",
    "C34_announced_partial"
   ],
   "note": "REFUTED for Silverman's kernel (k(x,x) = 1/sqrt 2 while announced as normalised); proved for the others; C34_announced_partial tells exactly when a kernel announces it."
  },
  {
   "property": "C35",
   "status": "proved",
   "theorems": [
    "C35_support"
   ],
   "note": "Boundary included: zero there except for the uniform kernel."
  },
  {
   "property": "C36",
   "status": "partial",
   "theorems": [
    "C36_metric_partial",
    "C36_ordered",
    "C36_minkowski_refuted",
    "C36_wasserstein_refuted"
   ],
   "note": "REFUTED for Minkowski, which raises AttributeError on every evaluation, and Wasserstein, which cannot be constructed; proved for Euclidean, Manhattan and Chebyshev."
  },
  {
   "property": "C37",
   "status": "proved",
   "theorems": [
    "C37_features_realise_kernel",
    "C37_degree_zero_refuted"
   ],
   "note": "Real arithmetic, by the multinomial theorem over the enumerated exponents. C37_degree_zero_refuted: degree zero has no feature map (TypeError)."
  },
  {
   "property": "C38",
   "status": "proved",
   "theorems": [
    "C38_announced_dimension",
    "C38_value",
    "C38_monomials"
   ],
   "note": "The announced number is the binomial coefficient and each monomial of the degree appears exactly once."
  },
  {
   "property": "C39",
   "status": "partial",
   "theorems": [
    "C39_second_argument_refuted",
    "C39_first_argument_twice_partial",
    "C39_negative_offset_refuted"
   ],
   "note": "REFUTED by C39_second_argument_refuted: the second argument (and the sample) is ignored when the first is given, for all inputs; C39_negative_offset_refuted. Proved fragment: k() and k(x) are the matrices of x against itself."
  },
  {
   "property": "C40",
   "status": "partial",
   "theorems": [
    "C40_documented_profile_partial",
    "C40_integers",
    "C40_between_refuted",
    "C40_single_point_refuted"
   ],
   "note": "REFUTED by C40_between_refuted (all pairs with lag < |x-y| < lag+1) and C40_single_point_refuted (assertion). Proved for all other pairs, in particular all integers."
  },
  {
   "property": "C41",
   "status": "partial",
   "theorems": [
    "C41_default_psd_partial",
    "C41_any_diagonal",
    "C41_lag_changed_refuted",
    "C41_diagonal_frozen",
    "C41_trainable_refuted"
   ],
   "note": "REFUTED by C41_lag_changed_refuted and C41_trainable_refuted. Proved for the default diagonal and an unchanged lag, and for every diagonal of at least twice the lag."
  },
  {
   "property": "C42",
   "status": "partial",
   "theorems": [
    "C42_additive",
    "C42_skewed",
    "C42_skewed_diagonal",
    "C42_skewed_empty_bin_refuted"
   ],
   "note": "REFUTED for the skewed kernel with an empty bin and default parameter (C42_skewed_empty_bin_refuted: k(x,x) = 0). Everything else proved."
  },
  {
   "property": "C43",
   "status": "proved",
   "theorems": [
    "C43_fourier",
    "C43_infinite"
   ],
   "note": "Also: the closed form for infinitely many features is the RBF kernel."
  },
  {
   "property": "C44",
   "status": "partial",
   "theorems": [
    "C44_inverse_undoes",
    "C44_activation_undoes",
    "C44_constructed_hyperbola",
    "C44_rejected",
    "C44_negative_slope_refuted",
    "C44_unchecked_alpha_refuted"
   ],
   "note": "REFUTED for negative slopes (accepted, no inverse) and for a later assignment of alpha; proved for all other parameters, both ways round."
  },
  {
   "property": "C45",
   "status": "proved",
   "theorems": [
    "C45_preimage_of_features",
    "C45_features_of_preimage"
   ],
   "note": "The pseudo-inverse is any matrix satisfying the projection laws; also the converse for full row rank."
  },
  {
   "property": "C46",
   "status": "partial",
   "theorems": [
    "C46_class_of_the_name",
    "C46_rejects_partial",
    "C46_only_public",
    "C46_documented_names",
    "C46_factory_refuted"
   ],
   "note": "REFUTED for the spellings of 'factory' (C46_factory_refuted: the default kernel is created). Everything else proved for all byte strings with ASCII case."
  },
  {
   "property": "C47",
   "status": "partial",
   "theorems": [
    "C47_unknown_refuted",
    "C47_known_partial"
   ],
   "note": "REFUTED for every other string: an exception object is returned, nothing is raised. The two known representations are proved."
  },
  {
   "property": "C48",
   "status": "proved",
   "theorems": [
    "C48_covariance",
    "C48_no_points",
    "C48_correlation"
   ],
   "note": "For any reached state, class, default list and data (sample or not) of d-dimensional features with enough points: cov is square, symmetric and positive semi-definite; corr has a unit diagonal, is symmetric and within [-1,1] where variances are positive, and is NaN when a variance is zero. Floats idealised as reals."
  },
  {
   "property": "C49",
   "status": "partial",
   "theorems": [
    "C49_sample_features",
    "C49_sample_features_error",
    "C49_out_of_sample",
    "C49_kernel_with_sample",
    "C49_below_base",
    "C49_indefinite_refuted",
    "C49_selection_partial",
    "C49_selection_refuted",
    "C49_permutation_refuted"
   ],
   "note": "REFUTED for a selection given together with the sample by C49_selection_refuted (IndexError) and C49_permutation_refuted (permuted twice), and for kernel matrices with a negative eigenvalue by C49_indefinite_refuted. Proved for any eigendecomposition over a real closed field: exact Gram matrix when what is left out is zero, entrywise error bound otherwise, consistency of out-of-sample features, exact kernel values with the sample, order of the quadratic forms; and for any history that selects after the sample was given."
  },
  {
   "property": "C50",
   "status": "proved",
   "theorems": [
    "C50_nearest",
    "C50_range",
    "C50_constant",
    "C50_accepted"
   ],
   "note": "For every choice among equal distances. C50_accepted characterises the accepted calls."
  },
  {
   "property": "C51",
   "status": "partial",
   "theorems": [
    "C51_convex_partial",
    "C51_range",
    "C51_constants",
    "C51_zero_row_refuted",
    "C51_kernel_smoother"
   ],
   "note": "REFUTED for rows of zeros by C51_zero_row_refuted (division by zero); proved for rows with a positive coefficient, and always defined for smoothing with a similarity kernel."
  },
  {
   "property": "C52",
   "status": "partial",
   "theorems": [
    "C52_success_partial",
    "C52_success_explicit_partial",
    "C52_failure_refuted"
   ],
   "note": "REFUTED by C52_failure_refuted: after a failure the level stays at light. Proved: restored after every success, unchanged when not lowered; failures of the objective at any iteration included."
  },
  {
   "property": "C53",
   "status": "partial",
   "theorems": [
    "C53_value",
    "C53_stable_partial",
    "C53_normalised_refuted"
   ],
   "note": "REFUTED as stated by C53_normalised_refuted (the cached tensor is divided in place); the exact value after any history is C53_value; proved fragment C53_stable_partial (value not cached, or no normalised reading)"
  },
  {
   "property": "C54",
   "status": "partial",
   "theorems": [
    "C54_primal_partial",
    "C54_primal_all_partial",
    "C54_primal_exact_partial",
    "C54_dual_refuted",
    "C54_dual_all",
    "C54_history_refuted"
   ],
   "note": "REFUTED in dual by C54_dual_refuted (the ratio is at most 1/n) and after a normalised reading of the total variance by C54_history_refuted; proved in primal on a fresh cache: C54_primal_partial, C54_primal_all_partial, C54_primal_exact_partial; exact dual value C54_dual_all"
  },
  {
   "property": "C55",
   "status": "proved",
   "theorems": [
    "C55_primal",
    "C55_dual",
    "C55_solved"
   ],
   "note": "primal: mean squared distance; dual: sum of squared distances; solved components are orthonormal (C55_solved). Eigendecomposition modelled by its specification."
  },
  {
   "property": "C56",
   "status": "partial",
   "theorems": [
    "C56_primal_partial",
    "C56_primal_sample_partial",
    "C56_dual_scaled",
    "C56_dual_refuted",
    "C56_dual_sample_refuted"
   ],
   "note": "REFUTED in dual by C56_dual_refuted and C56_dual_sample_refuted (factor n, exact value C56_dual_scaled); proved in primal: C56_primal_partial, C56_primal_sample_partial"
  },
  {
   "property": "C57",
   "status": "partial",
   "theorems": [
    "C57_whole_partial",
    "C57_value",
    "C57_order_refuted",
    "C57_subset_refuted"
   ],
   "note": "REFUTED for selections in another order by C57_order_refuted and for strict sub-selections by C57_subset_refuted (solving raises); exact value C57_value; proved fragment C57_whole_partial (whole sample in order)"
  },
  {
   "property": "C58",
   "status": "partial",
   "theorems": [
    "C58_primal_history_partial",
    "C58_primal_assigned_partial",
    "C58_dual_assigned_refuted",
    "C58_dual_updated_refuted"
   ],
   "note": "REFUTED when the dual variables are assigned or updated by C58_dual_assigned_refuted and C58_dual_updated_refuted (the primal ones stay); proved fragment C58_primal_assigned_partial and, along histories, C58_primal_history_partial"
  },
  {
   "property": "C59",
   "status": "partial",
   "theorems": [
    "C59_outputs_frozen_refuted",
    "C59_outputs_follow_refuted",
    "C59_uncached_partial",
    "C59_careful_partial",
    "C59_exactly"
   ],
   "note": "REFUTED by C59_outputs_frozen_refuted (default caching level and above: frozen for ever) and C59_outputs_follow_refuted; proved fragments C59_uncached_partial (lower caching levels), C59_careful_partial (a reset after every change); C59_exactly: for every history, the output as a memory of the outputs given since the last reset"
  },
  {
   "property": "C60",
   "status": "partial",
   "theorems": [
    "C60_before_step_frozen_refuted",
    "C60_losses_refreshed_refuted",
    "C60_uncached_partial",
    "C60_careful_partial"
   ],
   "note": "REFUTED by C60_before_step_frozen_refuted and C60_losses_refreshed_refuted; proved fragments C60_uncached_partial, C60_careful_partial"
  },
  {
   "property": "C61",
   "status": "proved",
   "theorems": [
    "C61_solution_meets_conditions",
    "C61_unique",
    "C61_residual",
    "C61_optimal"
   ],
   "note": "for an exact linear solver (an invertible system is solved, a singular one raises)"
  },
  {
   "property": "C62",
   "status": "partial",
   "theorems": [
    "C62_differ_refuted",
    "C62_singular_refuted",
    "C62_scale_refuted",
    "C62_centered_value",
    "C62_single_point_partial",
    "C62_unscaled_partial"
   ],
   "note": "REFUTED by C62_differ_refuted and C62_singular_refuted (and by C64_primal_refuted: the code of the primal solution raises before it); value on centered features C62_centered_value; proved fragments C62_single_point_partial, and C62_unscaled_partial for the system without the mean"
  },
  {
   "property": "C63",
   "status": "partial",
   "theorems": [
    "C63_other_sizes_refuted",
    "C63_square_refuted",
    "C63_single_output_partial"
   ],
   "note": "REFUTED by C63_other_sizes_refuted (raises) and C63_square_refuted; proved fragment C63_single_output_partial (one output)"
  },
  {
   "property": "C64",
   "status": "partial",
   "theorems": [
    "C64_lssvm_refuted",
    "C64_ridge_refuted",
    "C64_ridge_errors_refuted",
    "C64_no_points_refuted",
    "C64_primal_refuted",
    "C64_multiview_refuted",
    "C64_lssvm_dual_partial",
    "C64_created_partial",
    "C64_solved_partial"
   ],
   "note": "REFUTED by C64_lssvm_refuted, C64_ridge_refuted, C64_primal_refuted, C64_multiview_refuted; proved fragments C64_lssvm_dual_partial (bias refused, dual, consistent sizes), C64_created_partial, C64_solved_partial"
  },
  {
   "property": "C65",
   "status": "partial",
   "theorems": [
    "C65_slices_partial",
    "C65_duplicate_refuted",
    "C65_second_refuted",
    "C65_single_partial",
    "C65_dimensions_partial"
   ],
   "note": "REFUTED for predictions of two views or more by C65_second_refuted and for repeated names by C65_duplicate_refuted; proved: slices of distinctly named views C65_slices_partial, single predicted view C65_single_partial, dimensions C65_dimensions_partial"
  },
  {
   "property": "C66",
   "status": "partial",
   "theorems": [
    "C66_histories_partial",
    "C66_rejected",
    "C66_misfit",
    "C66_solve_refuted"
   ],
   "note": "REFUTED for solves with too few points or dropped components by C66_solve_refuted; proved: rejections C66_rejected, C66_misfit, every history of full-rank solves C66_histories_partial"
  },
  {
   "property": "C67",
   "status": "proved",
   "theorems": [
    "C67_evaluation",
    "C67_composition",
    "C67_training_rows",
    "C67_training_first",
    "C67_training_last",
    "C67_training_parameters",
    "C67_training_model"
   ],
   "note": "what a level computes is left open; deeper levels are evaluated on their own selection"
  },
  {
   "property": "C68",
   "status": "partial",
   "theorems": [
    "C68_nothing_saved_refuted",
    "C68_nothing_restored_refuted",
    "C68_object_partial",
    "C68_shape_refuted"
   ],
   "note": "REFUTED by C68_nothing_saved_refuted, C68_nothing_restored_refuted, C68_shape_refuted; proved for single levels and kernels of same shapes C68_object_partial"
  },
  {
   "property": "C69",
   "status": "partial",
   "theorems": [
    "C69_second_refuted",
    "C69_single_level_partial"
   ],
   "note": "REFUTED for two levels or more by C69_second_refuted; proved fragment C69_single_level_partial"
  },
  {
   "property": "C70",
   "status": "partial",
   "theorems": [
    "C70_exactly",
    "C70_refuted",
    "C70_trained_partial"
   ],
   "note": "REFUTED by C70_refuted (primal, or data given later); exact characterisation C70_exactly; proved fragment C70_trained_partial"
  },
  {
   "property": "C71",
   "status": "proved",
   "theorems": [
    "C71_batches",
    "C71_rejected",
    "C71_epochs"
   ],
   "note": ""
  },
  {
   "property": "C72",
   "status": "partial",
   "theorems": [
    "C72_accumulated",
    "C72_own_gradient_refuted",
    "C72_single_batch_partial"
   ],
   "note": "REFUTED by C72_own_gradient_refuted; exact value C72_accumulated; proved fragment C72_single_batch_partial"
  },
  {
   "property": "C73",
   "status": "partial",
   "theorems": [
    "C73_last_checkpoint_partial",
    "C73_constructed_partial",
    "C73_final_state_refuted",
    "C73_foreign_refuted"
   ],
   "note": "REFUTED for saving periods that do not divide the number of epochs minus one by C73_final_state_refuted; proved for all periods but the last clause C73_last_checkpoint_partial, and in full for watchers as their constructors create them (period 1) C73_constructed_partial; a file of another origin makes the end of the training fail (REFUTED by C73_foreign_refuted)"
  },
  {
   "property": "C74",
   "status": "partial",
   "theorems": [
    "C74_by_name_refuted",
    "C74_saver_refuted"
   ],
   "note": "REFUTED by C74_by_name_refuted, C74_saver_refuted; nothing positive to prove"
  },
  {
   "property": "C75",
   "status": "partial",
   "theorems": [
    "C75_indices_partial",
    "C75_sets_partial",
    "C75_generated_partial",
    "C75_too_much_refuted",
    "C75_files_partial",
    "C75_negative_refuted",
    "C75_from_end_refuted",
    "C75_separate_test_refuted"
   ],
   "note": "REFUTED by C75_too_much_refuted, C75_negative_refuted, C75_separate_test_refuted; proved for non-negative sizes the data can meet C75_indices_partial, C75_sets_partial, and for generated data sets C75_generated_partial; data sets read from a file meet exactly the requests up to their number of lines (C75_files_partial)"
  },
  {
   "property": "C76",
   "status": "proved",
   "theorems": [
    "C76_exact",
    "C76_sgd",
    "C76_adam",
    "C76_history"
   ],
   "note": "exact arithmetic; for learning rates that are not negative"
  },
  {
   "property": "C77",
   "status": "partial",
   "theorems": [
    "C77_momentum_refuted",
    "C77_forgetful_refuted",
    "C77_adam_partial"
   ],
   "note": "REFUTED for the SGD variant by C77_momentum_refuted, C77_forgetful_refuted; the Adam variant keeps the projected average of the gradients C77_adam_partial"
  },
  {
   "property": "C78",
   "status": "partial",
   "theorems": [
    "C78_listed_once",
    "C78_groups",
    "C78_complete_partial",
    "C78_never_fails_partial",
    "C78_sigmoid_refuted",
    "C78_random_features_refuted",
    "C78_explicit_nn_refuted",
    "C78_lssvm_primal_refuted",
    "C78_lssvm_gamma_refuted",
    "C78_ppca_refuted"
   ],
   "note": "no duplicates, order and groups proved for all (C78_listed_once, C78_groups); REFUTED for sigmoid kernels, random features, explicit neural kernels, probabilistic PCA (C78_ppca_refuted) and LSSVM; proved for the other classes C78_complete_partial, C78_never_fails_partial"
  },
  {
   "property": "C79",
   "status": "partial",
   "theorems": [
    "C79_read_back_partial",
    "C79_independent_partial",
    "C79_shared_refuted",
    "C79_classes_partial",
    "C79_class_level_refuted"
   ],
   "note": "REFUTED for objects of the same class by C79_shared_refuted; proved fragments C79_read_back_partial, C79_independent_partial (other logger names)"
  },
  {
   "property": "C80",
   "status": "proved",
   "theorems": [
    "C80_scalar",
    "C80_vector",
    "C80_matrix",
    "C80_rejected",
    "C80_idempotent",
    "C80_well_formed"
   ],
   "note": "element types and devices are not modelled"
  },
  {
   "property": "C81",
   "status": "partial",
   "theorems": [
    "C81_nonempty_selection_partial",
    "C81_nonempty_selection_refuted",
    "C81_exactly"
   ],
   "note": "REFUTED (C81_nonempty_selection_refuted: n=1, p=1/2). Proved whenever n*p > 1/2; C81_exactly: empty exactly when n*p <= 1/2."
  },
  {
   "property": "C82",
   "status": "partial",
   "theorems": [
    "C82_gradient_untouched",
    "C82_exactly",
    "C82_gradient_cleared_refuted"
   ],
   "note": "REFUTED: C82_gradient_untouched shows that no update ever changes the gradient (the zeroing acts on a copy)."
  },
  {
   "property": "C83",
   "status": "partial",
   "theorems": [
    "C83_rejected_bandwidth_refuted",
    "C83_exactly",
    "C83_defined_partial"
   ],
   "note": "REFUTED by C83_rejected_bandwidth_refuted: the placeholder becomes the bandwidth. Exact outcome in C83_exactly; proved when a bandwidth was given or read before (C83_defined_partial)."
  },
  {
   "property": "C84",
   "status": "partial",
   "theorems": [
    "C84_rejected_initialisation_refuted",
    "C84_exactly",
    "C84_readable_partial"
   ],
   "note": "REFUTED by C84_rejected_initialisation_refuted: the new sample is kept with the indices of the old one. Exact outcome in C84_exactly; C84_readable_partial says when the points can still be read."
  },
  {
   "property": "C85",
   "status": "partial",
   "theorems": [
    "C85_number_alone_refuted",
    "C85_dimension_alone_partial"
   ],
   "note": "REFUTED for the number of points alone (C85_number_alone_refuted, all states). Proved for the dimension first."
  },
  {
   "property": "C86",
   "status": "proved",
   "theorems": [
    "C86_setters_take_effect"
   ],
   "note": ""
  },
  {
   "property": "C87",
   "status": "partial",
   "theorems": [
    "C87_given_weights_refuted",
    "C87_no_reading_refuted",
    "C87_after_number_partial"
   ],
   "note": "REFUTED by C87_given_weights_refuted and, along every history at every level, by C87_no_reading_refuted: with given weights every reading raises AttributeError until a number of weights is assigned. Proved fragment C87_after_number_partial: after assigning a number and resetting, every reading shows the weights in force, including weights assigned afterwards."
  },
  {
   "property": "C88",
   "status": "partial",
   "theorems": [
    "C88_positive_partial",
    "C88_two_points_refuted",
    "C88_zero_bandwidth"
   ],
   "note": "REFUTED for samples of one or two points, whose bandwidth is zero; proved from three different points on."
  },
  {
   "property": "C89",
   "status": "proved",
   "theorems": [
    "C89_rbf_psd"
   ],
   "note": "By closure of positive semi-definite functions under products with the inner product, sums, limits and diagonal scaling."
  },
  {
   "property": "C90",
   "status": "proved",
   "theorems": [
    "C90_polynomial_psd"
   ],
   "note": ""
  },
  {
   "property": "C91",
   "status": "proved",
   "theorems": [
    "C91_hat_psd",
    "C91_hat_symmetric"
   ],
   "note": "The hat is the overlap of two intervals, a finite sum of products of indicators over the cuts of the points."
  },
  {
   "property": "C92",
   "status": "proved",
   "theorems": [
    "C92_sigmoid_bounded",
    "C92_sigmoid_not_psd"
   ],
   "note": ""
  },
  {
   "property": "C93",
   "status": "partial",
   "theorems": [
    "C93_slope_one_is_linear",
    "C93_diagonal_partial",
    "C93_symmetric",
    "C93_origin_refuted"
   ],
   "note": "REFUTED at the origin (C93_origin_refuted: NaN); proved elsewhere."
  },
  {
   "property": "C94",
   "status": "proved",
   "theorems": [
    "C94_documented_formulas",
    "C94_distances_exist",
    "C94_distance_names"
   ],
   "note": "is_distance and documented_kernel are written from the documentation. C94_distances_exist: every pair of points has such a distance."
  },
  {
   "property": "C95",
   "status": "partial",
   "theorems": [
    "C95_additive",
    "C95_skewed_partial",
    "C95_skewed_refuted"
   ],
   "note": "REFUTED for the skewed kernel by C95_skewed_refuted: for every p other than one the value on the diagonal differs (the code uses 2p where the documentation has 2); proved for the additive kernel and for p = 1."
  },
  {
   "property": "C96",
   "status": "partial",
   "theorems": [
    "C96_guard_partial",
    "C96_underscores_refuted"
   ],
   "note": "REFUTED for every spelling with underscores; proved for the spellings without."
  },
  {
   "property": "C97",
   "status": "partial",
   "theorems": [
    "C97_levels",
    "C97_levels_rejected",
    "C97_models_partial",
    "C97_datasets_partial"
   ],
   "note": "Levels proved (which class is named; whether the name is bound to it depends on what was used before, see C165 and C166). Models and datasets: exact characterisation, which also REFUTES the rejection of the name 'factory'."
  },
  {
   "property": "C98",
   "status": "partial",
   "theorems": [
    "C98_watchers_refuted"
   ],
   "note": "REFUTED for every string: the factory always raises."
  },
  {
   "property": "C99",
   "status": "partial",
   "theorems": [
    "C99_sample_partial",
    "C99_out_of_sample_refuted",
    "C99_cosine_refuted"
   ],
   "note": "REFUTED out of sample by C99_out_of_sample_refuted (mean of the sample) and for the cosine kernel by C99_cosine_refuted (normalised again after centring); proved for the sample and kernels without required transform by C99_sample_partial."
  },
  {
   "property": "C100",
   "status": "partial",
   "theorems": [
    "C100_levels_partial",
    "C100_no_cache_refuted"
   ],
   "note": "REFUTED at level none by C100_no_cache_refuted (every reading raises); proved for all other pairs of levels and all histories by C100_levels_partial."
  },
  {
   "property": "C101",
   "status": "partial",
   "theorems": [
    "C101_default_dimension_refuted",
    "C101_small_dimension_partial"
   ],
   "note": "REFUTED with the default dimension by C101_default_dimension_refuted; proved when the requested dimension is at most the number of selected points."
  },
  {
   "property": "C102",
   "status": "partial",
   "theorems": [
    "C102_sample_features_refuted",
    "C102_other_features_partial"
   ],
   "note": "REFUTED for sample features already read by C102_sample_features_refuted; proved for out-of-sample features and after a selection."
  },
  {
   "property": "C103",
   "status": "partial",
   "theorems": [
    "C103_default_dimension_partial",
    "C103_requested_dimension_refuted"
   ],
   "note": "REFUTED for a requested dimension that needs no pruning by C103_requested_dimension_refuted (AttributeError), which gives the exact outcome; proved for the default dimension. Kernel matrices without eigenvalue above the threshold are excluded."
  },
  {
   "property": "C104",
   "status": "partial",
   "theorems": [
    "C104_own_points_partial",
    "C104_features_partial",
    "C104_linear_refuted"
   ],
   "note": "REFUTED for the linear kernel by C104_linear_refuted; proved for all kernels of a distance but the uniform one by C104_own_points_partial."
  },
  {
   "property": "C105",
   "status": "partial",
   "theorems": [
    "C105_dimensions_refuted",
    "C105_square_partial"
   ],
   "note": "REFUTED by C105_dimensions_refuted: every image is rejected unless there are as many features as points; C105_square_partial: then it is accepted."
  },
  {
   "property": "C106",
   "status": "partial",
   "theorems": [
    "C106_converted_partial",
    "C106_value",
    "C106_float_refuted"
   ],
   "note": "REFUTED by C106_float_refuted: a float tensor is the result itself; proved for starting points that are converted."
  },
  {
   "property": "C107",
   "status": "partial",
   "theorems": [
    "C107_returned_refuted",
    "C107_returned_partial"
   ],
   "note": "REFUTED by C107_returned_refuted; proved fragment C107_returned_partial (no later normalised reading)"
  },
  {
   "property": "C108",
   "status": "proved",
   "theorems": [
    "C108_same_spectrum"
   ],
   "note": "eigendecomposition modelled by its specification"
  },
  {
   "property": "C109",
   "status": "partial",
   "theorems": [
    "C109_scaled",
    "C109_outputs_refuted"
   ],
   "note": "REFUTED by C109_outputs_refuted for two points or more; the exact relation is C109_scaled"
  },
  {
   "property": "C110",
   "status": "partial",
   "theorems": [
    "C110_primal_partial",
    "C110_dual_partial",
    "C110_dual_refuted",
    "C110_dual_one_refuted"
   ],
   "note": "REFUTED in dual by C110_dual_refuted (raises) and C110_dual_one_refuted (repeats the one component); proved fragments C110_primal_partial and C110_dual_partial (no variables yet, or of the right size)"
  },
  {
   "property": "C111",
   "status": "partial",
   "theorems": [
    "C111_dual_partial",
    "C111_primal_refuted"
   ],
   "note": "REFUTED in primal by C111_primal_refuted; proved in dual C111_dual_partial"
  },
  {
   "property": "C112",
   "status": "partial",
   "theorems": [
    "C112_dual_partial",
    "C112_primal_refuted",
    "C112_initialised"
   ],
   "note": "REFUTED in primal by C112_primal_refuted; proved in dual over all histories C112_dual_partial (solving excepted, see C110)"
  },
  {
   "property": "C113",
   "status": "partial",
   "theorems": [
    "C113_dual_partial",
    "C113_primal_square_partial",
    "C113_primal_refuted"
   ],
   "note": "REFUTED in primal by C113_primal_refuted; proved fragments C113_dual_partial, C113_primal_square_partial"
  },
  {
   "property": "C114",
   "status": "partial",
   "theorems": [
    "C114_hidden_refuted",
    "C114_weight_refuted",
    "C114_weight_dual_refuted",
    "C114_hidden_partial"
   ],
   "note": "REFUTED by C114_hidden_refuted, C114_weight_refuted, C114_weight_dual_refuted; proved fragment C114_hidden_partial (no sample yet)"
  },
  {
   "property": "C115",
   "status": "partial",
   "theorems": [
    "C115_attached_partial",
    "C115_once_partial",
    "C115_detach_refuted",
    "C115_forever_refuted"
   ],
   "note": "REFUTED by C115_detach_refuted and C115_forever_refuted; proved fragment C115_attached_partial (attaching works)"
  },
  {
   "property": "C116",
   "status": "partial",
   "theorems": [
    "C116_first_dual_partial",
    "C116_first_primal_refuted",
    "C116_every_refuted"
   ],
   "note": "REFUTED in primal by C116_first_primal_refuted and, after every history without a reset, by C116_every_refuted (the eigenvalues of the first read stay in use); proved in dual C116_first_dual_partial"
  },
  {
   "property": "C117",
   "status": "partial",
   "theorems": [
    "C117_contents_refuted",
    "C117_distinct_partial",
    "C117_every_refuted"
   ],
   "note": "REFUTED by C117_contents_refuted and, for every history and every new contents, by C117_every_refuted; proved while contents and parameters stay: C117_distinct_partial"
  },
  {
   "property": "C118",
   "status": "partial",
   "theorems": [
    "C118_selection_refuted",
    "C118_all_partial"
   ],
   "note": "REFUTED by C118_selection_refuted for every proper selection; the whole selection is C64_lssvm_dual_partial. Proved when all points are selected (C118_all_partial)."
  },
  {
   "property": "C119",
   "status": "partial",
   "theorems": [
    "C119_loss_refuted",
    "C119_errors_refuted"
   ],
   "note": "REFUTED by C119_loss_refuted in every state; nothing positive to prove"
  },
  {
   "property": "C120",
   "status": "partial",
   "theorems": [
    "C120_not_minimal_refuted",
    "C120_loss_value",
    "C120_minimal_partial"
   ],
   "note": "REFUTED by C120_not_minimal_refuted; exact relation C120_loss_value; proved fragment C120_minimal_partial (the square of gamma is the number of outputs)"
  },
  {
   "property": "C121",
   "status": "partial",
   "theorems": [
    "C121_kappa_refuted",
    "C121_residual_value",
    "C121_default_partial"
   ],
   "note": "REFUTED by C121_kappa_refuted; exact value C121_residual_value; proved fragment C121_default_partial (kappa 1)"
  },
  {
   "property": "C122",
   "status": "partial",
   "theorems": [
    "C122_bias_refuted",
    "C122_request_refuted",
    "C122_forced_refuted",
    "C122_asked_partial"
   ],
   "note": "REFUTED by C122_bias_refuted, C122_request_refuted. Proved for a solved level that was asked for a bias in spite of the exception (C122_asked_partial)."
  },
  {
   "property": "C123",
   "status": "partial",
   "theorems": [
    "C123_other_size_refuted",
    "C123_stale_target_refuted",
    "C123_same_size_partial"
   ],
   "note": "REFUTED by C123_other_size_refuted and C123_stale_target_refuted; proved fragment C123_same_size_partial"
  },
  {
   "property": "C124",
   "status": "proved",
   "theorems": [
    "C124_kernel"
   ],
   "note": "for kernels given by their features; the attributes the methods read are taken to exist"
  },
  {
   "property": "C125",
   "status": "partial",
   "theorems": [
    "C125_exactly",
    "C125_errors",
    "C125_numbers_refuted",
    "C125_ignored_refuted",
    "C125_name_partial"
   ],
   "note": "REFUTED for numbers by C125_numbers_refuted; proved fragment C125_name_partial (one known view by name); exact characterisation for all sets of keys C125_exactly, C125_errors"
  },
  {
   "property": "C126",
   "status": "proved",
   "theorems": [
    "C126_scores",
    "C126_kernel"
   ],
   "note": "for the known part of the prediction (scores and kernel values); the weights are those the methods are meant to read"
  },
  {
   "property": "C127",
   "status": "partial",
   "theorems": [
    "C127_exactly",
    "C127_refuted",
    "C127_default_partial"
   ],
   "note": "REFUTED by C127_refuted when the constructor was given level_trainable; exact characterisation C127_exactly; proved fragment C127_default_partial"
  },
  {
   "property": "C128",
   "status": "partial",
   "theorems": [
    "C128_returns_refuted",
    "C128_mode_partial"
   ],
   "note": "REFUTED by C128_returns_refuted; proved fragment C128_mode_partial"
  },
  {
   "property": "C129",
   "status": "partial",
   "theorems": [
    "C129_stale_refuted",
    "C129_first_partial",
    "C129_for_ever_refuted"
   ],
   "note": "REFUTED by C129_stale_refuted and, over every sequence of trainings of every model, C129_for_ever_refuted; proved fragment C129_first_partial"
  },
  {
   "property": "C130",
   "status": "proved",
   "theorems": [
    "C130_full_pass",
    "C130_model_pass"
   ],
   "note": "for levels that agree with themselves on their own points, all points selected"
  },
  {
   "property": "C131",
   "status": "proved",
   "theorems": [
    "C131_reported",
    "C131_nothing_else"
   ],
   "note": ""
  },
  {
   "property": "C132",
   "status": "partial",
   "theorems": [
    "C132_options_refuted",
    "C132_period_partial"
   ],
   "note": "REFUTED by C132_options_refuted; what holds: the period is always 1 (C132_period_partial)"
  },
  {
   "property": "C133",
   "status": "proved",
   "theorems": [
    "C133_default_read",
    "C133_new_objects",
    "C133_existing_objects",
    "C133_only_default"
   ],
   "note": "for objects other than the global logger itself"
  },
  {
   "property": "C134",
   "status": "partial",
   "theorems": [
    "C134_dimensions_refuted",
    "C134_row_refuted",
    "C134_matrix_partial",
    "C134_exactly",
    "C134_entries"
   ],
   "note": "REFUTED by C134_dimensions_refuted, C134_row_refuted; exact result for every input C134_exactly, entries preserved C134_entries, proved fragment C134_matrix_partial"
  },
  {
   "property": "C135",
   "status": "proved",
   "theorems": [
    "C135_representation",
    "C135_error"
   ],
   "note": ""
  },
  {
   "property": "C136",
   "status": "partial",
   "theorems": [
    "C136_orthonormal_partial",
    "C136_fixed",
    "C136_dependent_refuted"
   ],
   "note": "REFUTED for dependent rows by C136_dependent_refuted; proved for independent rows C136_orthonormal_partial, and C136_fixed"
  },
  {
   "property": "C137",
   "status": "proved",
   "theorems": [
    "C137_descent",
    "C137_stationary"
   ],
   "note": ""
  },
  {
   "property": "C138",
   "status": "partial",
   "theorems": [
    "C138_momentum_refuted",
    "C138_descent_partial",
    "C138_average_partial"
   ],
   "note": "REFUTED for the SGD variant with momentum by C138_momentum_refuted; proved without momentum C138_descent_partial and for the Adam variant with momentum C138_average_partial"
  },
  {
   "property": "C139",
   "status": "partial",
   "theorems": [
    "C139_scalar_refuted",
    "C139_first_refuted",
    "C139_hyperparameters",
    "C139_proper_partial"
   ],
   "note": "REFUTED by C139_scalar_refuted, C139_first_refuted for the hyperparameters listed by C139_hyperparameters; proved fragment C139_proper_partial"
  },
  {
   "property": "C140",
   "status": "partial",
   "theorems": [
    "C140_gradients_refuted",
    "C140_kept_partial"
   ],
   "note": "REFUTED with a weight decay by C140_gradients_refuted; proved without C140_kept_partial"
  },
  {
   "property": "C141",
   "status": "proved",
   "theorems": [
    "C141_reduce",
    "C141_step"
   ],
   "note": ""
  },
  {
   "property": "C142",
   "status": "partial",
   "theorems": [
    "C142_silent_refuted",
    "C142_name_partial",
    "C142_closure"
   ],
   "note": "REFUTED when nothing is trainable by C142_silent_refuted; proved otherwise C142_name_partial, C142_closure"
  },
  {
   "property": "C143",
   "status": "partial",
   "theorems": [
    "C143_largest",
    "C143_all",
    "C143_bounds",
    "C143_negative_refuted"
   ],
   "note": "REFUTED for a negative number of eigenpairs by C143_negative_refuted; proved for every other request: C143_largest, C143_all, C143_bounds"
  },
  {
   "property": "C144",
   "status": "partial",
   "theorems": [
    "C144_commuting_partial",
    "C144_singular_partial",
    "C144_refuted"
   ],
   "note": "REFUTED by C144_refuted; proved when the two matrices commute: C144_commuting_partial"
  },
  {
   "property": "C145",
   "status": "partial",
   "theorems": [
    "C145_positive_partial",
    "C145_singular_refuted",
    "C145_plain_partial",
    "C145_unsorted_refuted"
   ],
   "note": "REFUTED by C145_singular_refuted and C145_unsorted_refuted; proved for symmetric positive matrices: C145_positive_partial"
  },
  {
   "property": "C146",
   "status": "proved",
   "theorems": [
    "C146_primal",
    "C146_dual",
    "C146_requested",
    "C146_variance"
   ],
   "note": ""
  },
  {
   "property": "C147",
   "status": "partial",
   "theorems": [
    "C147_created_partial",
    "C147_negative_partial",
    "C147_setter_refuted",
    "C147_predictions_refuted",
    "C147_sample_refuted",
    "C147_total_variance_partial",
    "C147_bias_partial"
   ],
   "note": "REFUTED by C147_setter_refuted (a changed scale) and C147_predictions_refuted (dual predictions leave the scale out) and C147_sample_refuted (so do Phi and C on the sample); proved for a created level C147_created_partial, C147_negative_partial, C147_total_variance_partial; in both representations the bias is scaled by the root of the first scale (C147_bias_partial)"
  },
  {
   "property": "C148",
   "status": "partial",
   "theorems": [
    "C148_exact_partial",
    "C148_primal_partial",
    "C148_points_refuted",
    "C148_pruned_refuted"
   ],
   "note": "REFUTED in dual by C148_points_refuted and C148_pruned_refuted; exact condition C148_exact_partial; proved in primal C148_primal_partial"
  },
  {
   "property": "C149",
   "status": "proved",
   "theorems": [
    "C149_evaluation",
    "C149_training"
   ],
   "note": ""
  },
  {
   "property": "C150",
   "status": "partial",
   "theorems": [
    "C150_wide_partial",
    "C150_tall_refuted"
   ],
   "note": "REFUTED for more rows than columns by C150_tall_refuted; proved otherwise C150_wide_partial"
  },
  {
   "property": "C151",
   "status": "proved",
   "theorems": [
    "C151_order",
    "C151_level",
    "C151_kernel",
    "C151_below",
    "C151_level_first",
    "C151_kerch"
   ],
   "note": ""
  },
  {
   "property": "C152",
   "status": "partial",
   "theorems": [
    "C152_kernel_partial",
    "C152_level_partial",
    "C152_classes_refuted",
    "C152_slow_refuted",
    "C152_pickle_refuted"
   ],
   "note": "REFUTED by C152_classes_refuted, C152_slow_refuted (copies of levels on a kernel other than the default one) and C152_pickle_refuted; proved for kernels without a distance or with the Euclidean one C152_kernel_partial and for levels on the default kernel C152_level_partial"
  },
  {
   "property": "C153",
   "status": "partial",
   "theorems": [
    "C153_same_partial",
    "C153_independent_partial",
    "C153_sigmoid_refuted"
   ],
   "note": "REFUTED for the sigmoid kernel by C153_sigmoid_refuted; proved: the copy starts equal C153_same_partial, and is independent when no object stores a function C153_independent_partial"
  },
  {
   "property": "C154",
   "status": "partial",
   "theorems": [
    "C154_exact",
    "C154_named_partial",
    "C154_level_partial",
    "C154_derived_refuted",
    "C154_user_refuted",
    "C154_method_refuted",
    "C154_dropped_refuted"
   ],
   "note": "REFUTED by C154_derived_refuted, C154_user_refuted (name of the parent), C154_method_refuted (no dictionary) and C154_dropped_refuted (values of the level left out); proved exactly what is reported for all classes C154_exact, and for the other kernels C154_named_partial, C154_level_partial"
  },
  {
   "property": "C155",
   "status": "partial",
   "theorems": [
    "C155_kernel_partial",
    "C155_features_refuted",
    "C155_level_refuted"
   ],
   "note": "REFUTED by C155_features_refuted (bandwidth of random features) and C155_level_refuted (values of the level); proved for the other kernels, on their own and in levels C155_kernel_partial"
  },
  {
   "property": "C156",
   "status": "proved",
   "theorems": [
    "C156_laplacian_psd",
    "C156_exponential_manhattan_psd",
    "C156_logistic_psd",
    "C156_silverman_psd"
   ],
   "note": ""
  },
  {
   "property": "C157",
   "status": "proved",
   "theorems": [
    "C157_additive_psd",
    "C157_skewed_psd",
    "C157_small_features"
   ],
   "note": "C157_small_features shows that the condition on small features is needed"
  },
  {
   "property": "C158",
   "status": "proved",
   "theorems": [
    "C158_compact_kernels"
   ],
   "note": ""
  },
  {
   "property": "C159",
   "status": "proved",
   "theorems": [
    "C159_default_bandwidth",
    "C159_bandwidth_unit",
    "C159_given_bandwidth",
    "C159_sample_order"
   ],
   "note": ""
  },
  {
   "property": "C160",
   "status": "proved",
   "theorems": [
    "C160_never_above",
    "C160_more_components"
   ],
   "note": ""
  },
  {
   "property": "C161",
   "status": "proved",
   "theorems": [
    "C161_training_error",
    "C161_norm",
    "C161_better_than_constants",
    "C161_sum"
   ],
   "note": "for kappa = 1; C121 shows what another scale does"
  },
  {
   "property": "C162",
   "status": "proved",
   "theorems": [
    "C162_linear",
    "C162_shift",
    "C162_order",
    "C162_scale"
   ],
   "note": ""
  },
  {
   "property": "C163",
   "status": "proved",
   "theorems": [
    "C163_rule",
    "C163_kernel_in_level",
    "C163_levels",
    "C163_kernels",
    "C163_not_a_kernel"
   ],
   "note": "up to __init__: what the constructors refuse is the subject of C63, C64 and others; Abstract.v lists the names that are abstract in some class of kerch"
  },
  {
   "property": "C164",
   "status": "partial",
   "theorems": [
    "C164_exported_refuted",
    "C164_kerch_refuted",
    "C164_others_partial",
    "C164_missing_partial"
   ],
   "note": "REFUTED by C164_exported_refuted and C164_kerch_refuted: PPCA (and View, WPCA) implement neither H nor W and can be created with no kernel of kerch, nor with any kernel whose classes do not define them; hence no view of a multi-view level can be made from its parameters. KPCA, LSSVM, Ridge and MVKPCA have no abstract method left (C164_others_partial)."
  },
  {
   "property": "C165",
   "status": "partial",
   "theorems": [
    "C165_refuted",
    "C165_lssvm",
    "C165_factory",
    "C165_others_partial",
    "C165_level_refuted",
    "C165_models_import",
    "C165_stable",
    "C165_unknown"
   ],
   "note": "REFUTED by C165_refuted: after Ridge, LSSVM is a module and the factory cannot make it; exactly when is C165_lssvm and C165_factory (any history). C165_level_refuted: Level is never the class. Proved: all other names in every history (C165_others_partial), stability (C165_stable). Assumes lazy_loader without EAGER_IMPORT."
  },
  {
   "property": "C166",
   "status": "partial",
   "theorems": [
    "C166_model",
    "C166_factory",
    "C166_refuted",
    "C166_others_partial",
    "C166_trainer_refuted"
   ],
   "note": "REFUTED by C166_refuted and C166_trainer_refuted; exact characterisation of Model and of the factory for every history: C166_model, C166_factory; the other names are right in every history (C166_others_partial)."
  },
  {
   "property": "C167",
   "status": "proved",
   "theorems": [
    "C167_offered",
    "C167_files",
    "C167_unknown"
   ],
   "note": "imports of other packages from the kernel files (transform, feature, utils, torch) are taken to succeed without effect on kerch.kernel; names of files, as kerch.kernel.kernel, are attributes once loaded"
  },
  {
   "property": "C168",
   "status": "proved",
   "theorems": [
    "C168_data",
    "C168_bandwidth",
    "C168_predictions",
    "C168_uniform_jumps",
    "C168_uniform_steady"
   ],
   "note": ""
  },
  {
   "property": "C169",
   "status": "proved",
   "theorems": [
    "C169_standardize",
    "C169_rescale",
    "C169_threshold",
    "C169_standardize_twice",
    "C169_rescale_twice",
    "C169_normalize"
   ],
   "note": ""
  },
  {
   "property": "C170",
   "status": "proved",
   "theorems": [
    "C170_euclidean",
    "C170_euclidean_default",
    "C170_inner",
    "C170_order",
    "C170_order_default",
    "C170_order_inner",
    "C170_axes"
   ],
   "note": ""
  },
  {
   "property": "C171",
   "status": "proved",
   "theorems": [
    "C171_first",
    "C171_variance",
    "C171_loss",
    "C171_diminishing",
    "C171_share"
   ],
   "note": "the decomposition returned by torch is taken to be the same for the same matrix"
  },
  {
   "property": "C172",
   "status": "proved",
   "theorems": [
    "C172_distance",
    "C172_polynomial",
    "C172_polynomial_limit"
   ],
   "note": ""
  },
  {
   "property": "C173",
   "status": "proved",
   "theorems": [
    "C173_more_points",
    "C173_error",
    "C173_same_points",
    "C173_all_components_needed"
   ],
   "note": ""
  },
  {
   "property": "C174",
   "status": "proved",
   "theorems": [
    "C174_primal",
    "C174_dual",
    "C174_sign",
    "C174_separation_needed"
   ],
   "note": ""
  },
  {
   "property": "C175",
   "status": "partial",
   "theorems": [
    "C175_refuted",
    "C175_through_partial",
    "C175_copied_partial",
    "C175_copies",
    "C175_early_partial",
    "C175_kerch_partial",
    "C175_frame_partial",
    "C175_solve_partial"
   ],
   "note": "REFUTED by C175_refuted: kerch.FTYPE and kerch.ITYPE never change (C175_kerch_partial), and eleven copies of the names (C175_copies) keep the value of the moment at which their module was loaded; proved: the exact value everywhere after every history (C175_through_partial, C175_copied_partial), agreement when the choice precedes every use (C175_early_partial), frame and rejection (C175_frame_partial), when an LS-SVM can be solved (C175_solve_partial)"
  },
  {
   "property": "C176",
   "status": "proved",
   "theorems": [
    "C176_contraction",
    "C176_leverage",
    "C176_mutual"
   ],
   "note": "kappa = 1 (the default); the kernel and the regularisation are the same for both solutions"
  },
  {
   "property": "C177",
   "status": "proved",
   "theorems": [
    "C177_leave_out",
    "C177_add"
   ],
   "note": ""
  },
  {
   "property": "C178",
   "status": "partial",
   "theorems": [
    "C178_separate_partial",
    "C178_table_partial",
    "C178_indicator_refuted",
    "C178_indicator_partial",
    "C178_hyperbola_refuted"
   ],
   "note": "REFUTED by C178_indicator_refuted (gamma of LSSVM and Ridge is the diagonal of the indicator kernel; the default matrix is never positive semi-definite) and C178_hyperbola_refuted (LSSVM and Ridge cannot be created with the hyperbola kernel); proved: independence for all histories exactly when no name is used by both (C178_separate_partial), and the exact table of the names used by both, for all levels, kernels and distances (C178_table_partial)"
  },
  {
   "property": "C179",
   "status": "partial",
   "theorems": [
    "C179_text_partial",
    "C179_none_refuted",
    "C179_sites_partial",
    "C179_refuted"
   ],
   "note": "REFUTED by C179_refuted: at ten of twenty-nine places no error of kerch names the object (one raises a TypeError, two lose their message); proved: the text of every error however it is made (C179_text_partial), and the text at the nineteen other places (C179_sites_partial); message None: C179_none_refuted"
  },
  {
   "property": "C180",
   "status": "partial",
   "theorems": [
    "C180_matrix_partial",
    "C180_labels_refuted",
    "C180_eigenvalues_refuted",
    "C180_scatter_refuted"
   ],
   "note": "REFUTED by C180_labels_refuted (labels of axes are never displayed), C180_eigenvalues_refuted (all bars at the same place, one eigenvalue cannot be plotted) and C180_scatter_refuted (no scatter plot without target, no heat map ever); proved: what a plot of a matrix changes, exactly (C180_matrix_partial)"
  },
  {
   "property": "C181",
   "status": "proved",
   "theorems": [
    "C181_chain",
    "C181_kerch"
   ],
   "note": "options that are read under a condition are treated as always read; the construction of a Nystrom kernel from an existing one is not modelled"
  },
  {
   "property": "C182",
   "status": "partial",
   "theorems": [
    "C182_exact_partial",
    "C182_refuted"
   ],
   "note": "REFUTED by C182_refuted: the warning is given before the logger exists, so that an AttributeError is raised; proved: the exact condition under which an object can be created (C182_exact_partial); that the value is not used otherwise is in C181_kerch"
  },
  {
   "property": "C183",
   "status": "proved",
   "theorems": [
    "C183_selection",
    "C183_primal",
    "C183_larger",
    "C183_stable"
   ],
   "note": "exact arithmetic; the decomposition is any one with orthonormal vectors and ascending values"
  },
  {
   "property": "C184",
   "status": "proved",
   "theorems": [
    "C184_interpolates",
    "C184_flat",
    "C184_smooth",
    "C184_needed"
   ],
   "note": "exact arithmetic, dual representation, scale kappa of the view equal to one (C147 treats others)"
  },
  {
   "property": "C185",
   "status": "proved",
   "theorems": [
    "C185_solution",
    "C185_predictions",
    "C185_entries"
   ],
   "note": "exact arithmetic, dual representation, kappa equal to one"
  },
  {
   "property": "C186",
   "status": "proved",
   "theorems": [
    "C186_exact",
    "C186_close"
   ],
   "note": "exact arithmetic, dual representation, kappa equal to one; bound on the predictions through C185_predictions"
  },
  {
   "property": "C187",
   "status": "proved",
   "theorems": [
    "C187_subspace",
    "C187_component",
    "C187_entries",
    "C187_needed"
   ],
   "note": "exact arithmetic; the decompositions are any ones with orthonormal vectors and ascending values"
  },
  {
   "property": "C188",
   "status": "partial",
   "theorems": [
    "C188_read_partial",
    "C188_misnamed_refuted",
    "C188_dimensions_refuted"
   ],
   "note": "REFUTED for three names by C188_misnamed_refuted (param_trainable of views, networks_trainable of ExplicitNN and params of Sigmoid have no effect) and for the default of the dimensions by C188_dimensions_refuted; proved for all other documented options: C188_read_partial"
  },
  {
   "property": "C189",
   "status": "proved",
   "theorems": [
    "C189_error",
    "C189_others",
    "C189_one"
   ],
   "note": "exact arithmetic, dual representation, kappa equal to one"
  },
  {
   "property": "C190",
   "status": "partial",
   "theorems": [
    "C190_moons_counts_partial",
    "C190_moons_circles_partial",
    "C190_moons_range_partial",
    "C190_moons_labels_partial",
    "C190_moons_labels_refuted",
    "C190_spiral_labels_partial",
    "C190_spiral_counts_partial",
    "C190_spiral_labels_refuted",
    "C190_spiral_range_refuted",
    "C190_spiral_range_partial"
   ],
   "note": "REFUTED for spirals by C190_spiral_labels_refuted (from 210 points on the two spirals share a point) and C190_spiral_range_refuted (points above the announced range from 18 points on), and for two moons by C190_moons_labels_refuted (some separations make the half circles meet); proved: sizes, class counts, half circles, range of the moons, labels of the moons by default, labels of the spirals up to 208 points, range of the spirals up to 416 points with the bound 6"
  },
  {
   "property": "C191",
   "status": "proved",
   "theorems": [
    "C191_centering",
    "C191_features",
    "C191_explicit",
    "C191_lssvm",
    "C191_lssvm_centered",
    "C191_lssvm_moved",
    "C191_conditional",
    "C191_distances"
   ],
   "note": "exact arithmetic, LS-SVM in dual with kappa equal to one"
  },
  {
   "property": "C192",
   "status": "proved",
   "theorems": [
    "C192_dual",
    "C192_primal",
    "C192_order"
   ],
   "note": "exact arithmetic; the decomposition is that of MatrixSpec"
  },
  {
   "property": "C193",
   "status": "partial",
   "theorems": [
    "C193_arguments",
    "C193_accepted",
    "C193_refuted",
    "C193_ordered",
    "C193_missing",
    "C193_verbose",
    "C193_followed_partial",
    "C193_runs_partial",
    "C193_training_partial",
    "C193_twice_refuted",
    "C193_no_file_refuted",
    "C193_name_partial",
    "C193_name_refuted"
   ],
   "note": "REFUTED by C193_refuted: the trainer cannot be imported, so every experiment fails once the data and the model are loaded; also C193_twice_refuted (options that the command gives itself), C193_no_file_refuted (a command without a file is accepted and fails) and C193_name_refuted (a name loses a letter with the ending .yml). Proved: arguments, order of the parts, verbosity; and, if the import is repaired, C193_followed_partial and C193_runs_partial"
  },
  {
   "property": "C194",
   "status": "proved",
   "theorems": [
    "C194_variances",
    "C194_outputs",
    "C194_spectrum"
   ],
   "note": "exact arithmetic; the decompositions are those of MatrixSpec, with at least one component requested"
  },
  {
   "property": "C195",
   "status": "proved",
   "theorems": [
    "C195_lssvm",
    "C195_primal",
    "C195_dual",
    "C195_centered"
   ],
   "note": "exact arithmetic; the decompositions are those of MatrixSpec; the LS-SVM in primal is not covered, its attributes being missing (C64)"
  },
  {
   "property": "C196",
   "status": "proved",
   "theorems": [
    "C196_coordinates",
    "C196_observation_order",
    "C196_domain_order",
    "C196_scale",
    "C196_ties_refuted"
   ],
   "note": "exact arithmetic; the selection of the largest values is any routine that selects largest values (selects_largest); the case of equal distances is C196_ties_refuted, as the statement says"
  },
  {
   "property": "C197",
   "status": "partial",
   "theorems": [
    "C197_latent_partial",
    "C197_moment_partial",
    "C197_recovered_partial",
    "C197_posterior",
    "C197_dual",
    "C197_dual_refuted"
   ],
   "note": "REFUTED in dual by C197_dual_refuted (factor n everywhere, exact values C197_dual); proved in primal: C197_latent_partial, C197_moment_partial, C197_recovered_partial. The normal numbers are any matrix; the option posterior is not read (C197_posterior)."
  },
  {
   "property": "C198",
   "status": "partial",
   "theorems": [
    "C198_least_squares_partial",
    "C198_exact_partial",
    "C198_undefined_partial",
    "C198_dual_inverted",
    "C198_dual_refuted"
   ],
   "note": "REFUTED in dual by C198_dual_refuted (two identical views: undefined with two points, opposite sign with more; the inverted matrix is C198_dual_inverted); proved in primal: C198_least_squares_partial, C198_exact_partial, C198_undefined_partial. About the formulas: multi-view levels cannot be created (C64)."
  },
  {
   "property": "C199",
   "status": "proved",
   "theorems": [
    "C199_rates",
    "C199_steps",
    "C199_descent",
    "C199_linear",
    "C199_too_fast"
   ],
   "note": "exact arithmetic; torch.optim.SGD and ReduceLROnPlateau are modelled from their documentation with the arguments of the call and their defaults; the gradient is the function that backward computes, the linear kernel having the one written in IterativeM.v (checked by the expansion of the objective)"
  },
  {
   "property": "C200",
   "status": "proved",
   "theorems": [
    "C200_handed_over",
    "C200_last_word",
    "C200_last_gradient"
   ],
   "note": ""
  },
  {
   "property": "C201",
   "status": "partial",
   "theorems": [
    "C201_exactly_partial",
    "C201_initialised_partial",
    "C201_in_sample",
    "C201_update_refuted",
    "C201_refused_refuted",
    "C201_no_sample"
   ],
   "note": "REFUTED by C201_update_refuted (updates and selections leave the layers as they were) and C201_refused_refuted (a refused initialisation spoils the first layer); proved: what the features are exactly after any history (C201_exactly_partial), that an accepted initialisation gives the stack that would be made anew (C201_initialised_partial), and C201_in_sample. A stack cannot be made without a sample (C201_no_sample)."
  },
  {
   "property": "C202",
   "status": "proved",
   "theorems": [
    "C202_recovers",
    "C202_defined"
   ],
   "note": "exact arithmetic; the pseudo-inverse is any matrix p with w p w = w; bandwidth one, as the stack gives none to its layers"
  },
  {
   "property": "C203",
   "status": "proved",
   "theorems": [
    "C203_dual",
    "C203_at_most",
    "C203_loss",
    "C203_primal",
    "C203_features"
   ],
   "note": "exact arithmetic; the decompositions are any with orthonormal vectors and ascending values. About the formulas: multi-view levels cannot be created (C64)."
  },
  {
   "property": "C204",
   "status": "proved",
   "theorems": [
    "C204_predictions",
    "C204_trained",
    "C204_reached",
    "C204_components_dual",
    "C204_components_primal",
    "C204_same"
   ],
   "note": "exact arithmetic; the kernel enters by its values on the sample and the new points, whose joint matrix is positive semi-definite (for the kernels of the library see C32, C89-C91 and C156-C158)"
  },
  {
   "property": "C205",
   "status": "proved",
   "theorems": [
    "C205_solution",
    "C205_minimum",
    "C205_lssvm",
    "C205_centered",
    "C205_contracts",
    "C205_bounded"
   ],
   "note": "exact arithmetic, about the system that the dual builds on the targets it should get: solve passes no target and fails before (C64)"
  },
  {
   "property": "C206",
   "status": "partial",
   "theorems": [
    "C206_factor",
    "C206_solutions",
    "C206_exactly",
    "C206_refuted",
    "C206_single_partial"
   ],
   "note": "REFUTED by C206_refuted: the primal uses the mean of the features' products and the dual their sum; from two points on both agree only when no feature correlates with any target (C206_exactly). Proved: what the primal computes exactly (C206_factor), that both always have a solution (C206_solutions), and agreement for one point (C206_single_partial)."
  },
  {
   "property": "C207",
   "status": "proved",
   "theorems": [
    "C207_kernel_values",
    "C207_features",
    "C207_own_points"
   ],
   "note": "exact arithmetic; the optimiser is any function that may fail; features only in the case where they are accepted (see C105)"
  },
  {
   "property": "C208",
   "status": "partial",
   "theorems": [
    "C208_kept_variances",
    "C208_noise_is_mean_of_left_out",
    "C208_total_variance_exactly",
    "C208_primal_exactly",
    "C208_total_variance_refuted",
    "C208_primal_refuted"
   ],
   "note": "REFUTED by C208_total_variance_refuted (the noise is a mean variance but is used as a deviation, and squared) and C208_primal_refuted (eigenvalues of the second moment, already divided by n, are divided again). Proved: variances kept in dual (C208_kept_variances), the noise (C208_noise_is_mean_of_left_out), and the exact conditions under which the total (noise 0 or 1) and the primal (one point, or no variance) are right. The class itself cannot be created (C164): this is about the formulas of its methods."
  },
  {
   "property": "C209",
   "status": "partial",
   "theorems": [
    "C209_solvable_exactly",
    "C209_small_noise",
    "C209_units_exactly",
    "C209_every_unit_refuted"
   ],
   "note": "REFUTED by C209_every_unit_refuted: two orthogonal points are solved, and not solved any more with the kernel multiplied by more than 2. Proved: exact condition (C209_solvable_exactly), in every unit (C209_units_exactly), and enough: noise at most 1 (C209_small_noise)."
  },
  {
   "property": "C210",
   "status": "proved",
   "theorems": [
    "C210_most_likely_dual",
    "C210_most_likely_primal",
    "C210_reconstructions_agree"
   ],
   "note": "exact arithmetic; formulas of the methods, since the class cannot be created (C164); the row mu, whose attribute does not exist, is arbitrary"
  },
  {
   "property": "C211",
   "status": "partial",
   "theorems": [
    "C211_draws_exactly",
    "C211_draws_refuted",
    "C211_drawn_from_latent"
   ],
   "note": "REFUTED by C211_draws_refuted: draws are multiplied by the Cholesky factor on the wrong side. Proved: right exactly when the covariance is diagonal (C211_draws_exactly); drawing latent variables first gives the covariance without noise (C211_drawn_from_latent). Standard draws are draws with identity second moment."
  },
  {
   "property": "C212",
   "status": "partial",
   "theorems": [
    "C212_kernel_values",
    "C212_features_partial",
    "C212_own_exactly",
    "C212_no_features_refuted",
    "C212_polynomial_refuted"
   ],
   "note": "REFUTED by C212_no_features_refuted (a TypeError whatever is asked) and C212_polynomial_refuted (never a pre-image), and C212_own_exactly shows that kernels of neural networks fail even with a decoder. Proved: everything about kernel values (C212_kernel_values), the methods for known features (C212_features_partial), and exactly which kernels have a pre-image of their own (C212_own_exactly)."
  },
  {
   "property": "C213",
   "status": "proved",
   "theorems": [
    "C213_mean_and_spread",
    "C213_only_constants",
    "C213_never_reverses",
    "C213_distance_kernels"
   ],
   "note": "exact arithmetic; num='all' (the default)"
  },
  {
   "property": "C214",
   "status": "partial",
   "theorems": [
    "C214_few_partial",
    "C214_agree_iff",
    "C214_totals_partial",
    "C214_smoother_refuted",
    "C214_none_refuted",
    "C214_others_refuted"
   ],
   "note": "REFUTED when all points are used by C214_smoother_refuted: the coefficients are divided by the sums of their columns, and one point gets the sum of all x whatever its coefficients; num = 0 gives zeros (C214_none_refuted) and the other functions only raise (C214_others_refuted). Proved fragment: with fewer neighbours than points it is kerch.method.smoother (C214_few_partial), with all of them the totals are kept (C214_totals_partial) and C214_agree_iff says exactly for which coefficients the two agree"
  },
  {
   "property": "C215",
   "status": "proved",
   "theorems": [
    "C215_symmetric",
    "C215_similarity",
    "C215_decreasing",
    "C215_distance",
    "C215_exact"
   ],
   "note": "no overflow; the same order of summation for all entries; the logistic kernel needs that the machine represents 2 and 4 and that its exponentials of opposite numbers do not add up to less than 2"
  },
  {
   "property": "C216",
   "status": "proved",
   "theorems": [
    "C216_error",
    "C216_tolerance",
    "C216_matrices"
   ],
   "note": "neither overflow nor underflow (relative accuracy of every operation)"
  },
  {
   "property": "C217",
   "status": "proved",
   "theorems": [
    "C217_listing_is_what_is_stored",
    "C217_public_within_full",
    "C217_removal",
    "C217_read"
   ],
   "note": "names are not empty (an empty name would raise an IndexError in the listing; no caller uses one); a read that destroys its element is covered by C217_listing_is_what_is_stored only"
  },
  {
   "property": "C218",
   "status": "proved",
   "theorems": [
    "C218_error",
    "C218_entries",
    "C218_operator",
    "C218_features",
    "C218_requested"
   ],
   "note": "exact arithmetic; the decomposition is any one with orthonormal vectors and ascending values"
  },
  {
   "property": "C219",
   "status": "partial",
   "theorems": [
    "C219_missing_refuted",
    "C219_kernel_partial",
    "C219_scale_refuted",
    "C219_dual_partial",
    "C219_primal_partial"
   ],
   "note": "REFUTED by C219_missing_refuted (the members read the attributes hidden and weight, which no call sets) and C219_scale_refuted (K_reconstructed is divided by the number of points); proved fragments C219_kernel_partial, C219_dual_partial and C219_primal_partial hold once the user has assigned the solution to these attributes"
  },
  {
   "property": "C220",
   "status": "proved",
   "theorems": [
    "C220_features",
    "C220_kernel",
    "C220_kernel_sample",
    "C220_smoother",
    "C220_neighbours",
    "C220_predictions",
    "C220_components",
    "C220_nystrom"
   ],
   "note": "a matrix with a row that is not a number counts as undefined as a whole; nearest neighbours for distances without ties (which of the tied observations torch keeps is left open)"
  },
  {
   "property": "C221",
   "status": "partial",
   "theorems": [
    "C221_batch_refuted",
    "C221_steps_partial",
    "C221_alone_partial",
    "C221_linear_partial"
   ],
   "note": "REFUTED by C221_batch_refuted (the objective is a mean over all points, so the rate is divided by their number; after one step the answers differ unless the point is alone, the rate is zero or the point does not move); proved fragments C221_steps_partial, C221_alone_partial and C221_linear_partial: up to 52 steps each point makes the steps it would make alone with the rate divided by the number of points"
  },
  {
   "property": "C222",
   "status": "proved",
   "theorems": [
    "C222_large",
    "C222_large_uniform",
    "C222_small",
    "C222_matrix_small",
    "C222_matrix_large",
    "C222_predictions_small",
    "C222_predictions_large"
   ],
   "note": "real arithmetic"
  },
  {
   "property": "C223",
   "status": "proved",
   "theorems": [
    "C223_nearest",
    "C223_ties",
    "C223_mean"
   ],
   "note": "real arithmetic: floating-point numbers may underflow for very small bandwidths, and the coefficients then sum to zero"
  },
  {
   "property": "C224",
   "status": "proved",
   "theorems": [
    "C224_small_solution",
    "C224_small_fit",
    "C224_small_predictions",
    "C224_large_solution",
    "C224_large_predictions"
   ],
   "note": "for the matrix of the kernel without the factor kappa (kappa = 1 in predictions); that the kernel matrices tend to these limits is C222"
  },
  {
   "property": "C225",
   "status": "proved",
   "theorems": [
    "C225_descent",
    "C225_momentum",
    "C225_second_moment",
    "C225_corrected"
   ],
   "note": "real arithmetic; without weight decay and dampening"
  }
 ]
}