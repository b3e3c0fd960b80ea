{
 "claims": [
  {
   "property": "C01",
   "status": "proved",
   "theorems": [
    "C01_set_all_or_nothing",
    "C01_history"
   ],
   "note": ""
  },
  {
   "property": "C02",
   "status": "proved",
   "theorems": [
    "C02_in_limits",
    "C02_any_history_refuted"
   ],
   "note": "C02_in_limits is the property; C02_any_history_refuted shows its hypothesis (no limit moved past the value) cannot be dropped."
  },
  {
   "property": "C03",
   "status": "partial",
   "theorems": [
    "C03_numbers_in_range",
    "C03_rejects_everything_else_refuted"
   ],
   "note": "Refuted for NaN (C03_rejects_everything_else_refuted); C03_numbers_in_range holds for all other binary64 values."
  },
  {
   "property": "C04",
   "status": "partial",
   "theorems": [
    "C04_assignment_keeps_listener_refuted",
    "C04_copy_constructor_partial"
   ],
   "note": "Refuted: assignment transfers the listener. The copy constructor does not (C04_copy_constructor_partial)."
  },
  {
   "property": "C05",
   "status": "proved",
   "theorems": [
    "C05_vector_set",
    "C05_vector_history"
   ],
   "note": ""
  },
  {
   "property": "C06",
   "status": "proved",
   "theorems": [
    "C06_notify_exactly_once"
   ],
   "note": ""
  },
  {
   "property": "C07",
   "status": "proved",
   "theorems": [
    "C07_ring_holds_last_values",
    "C07_ring_wf_reachable",
    "C07_single_channel"
   ],
   "note": ""
  },
  {
   "property": "C08",
   "status": "proved",
   "theorems": [
    "C08_ring_mean"
   ],
   "note": ""
  },
  {
   "property": "C09",
   "status": "partial",
   "theorems": [
    "C09_resize_keeps_refuted",
    "C09_resize_not_full_partial"
   ],
   "note": "Refuted for full buffers; C09_resize_not_full_partial gives the case that holds."
  },
  {
   "property": "C10",
   "status": "proved",
   "theorems": [
    "C10_product",
    "C10_transpose",
    "C10_transpose_involutive",
    "C10_transpose_of_product"
   ],
   "note": ""
  },
  {
   "property": "C11",
   "status": "proved",
   "theorems": [
    "C11_two_sided_inverse",
    "C11_pinv_square"
   ],
   "note": ""
  },
  {
   "property": "C12",
   "status": "proved",
   "theorems": [
    "C12_refuses_singular"
   ],
   "note": ""
  },
  {
   "property": "C13",
   "status": "proved",
   "theorems": [
    "C13_determinant_up_to_sign",
    "C13_determinant_without_exchange",
    "C13_sign_refuted"
   ],
   "note": "C13_sign_refuted is the exception the statement names."
  },
  {
   "property": "C14",
   "status": "proved",
   "theorems": [
    "C14_one_sided_inverse"
   ],
   "note": ""
  },
  {
   "property": "C15",
   "status": "proved",
   "theorems": [
    "C15_round_trip",
    "C15_rejects_non_array",
    "C15_rejects_size",
    "C15_no_overrun",
    "C15_size_zero_refuted"
   ],
   "note": "C15_size_zero_refuted is the exception the statement names."
  },
  {
   "property": "C16",
   "status": "proved",
   "theorems": [
    "C16_recorded_frames"
   ],
   "note": ""
  },
  {
   "property": "C17",
   "status": "proved",
   "theorems": [
    "C17_throw_changes_nothing",
    "C17_rejections"
   ],
   "note": ""
  },
  {
   "property": "C18",
   "status": "proved",
   "theorems": [
    "C18_empty",
    "C18_clear_input_refuted"
   ],
   "note": "C18_clear_input_refuted is the exception the statement names."
  },
  {
   "property": "C19",
   "status": "proved",
   "theorems": [
    "C19_json_round_trip",
    "C19_empty_phrase_refuted",
    "C19_dimensions_refuted"
   ],
   "note": "The two _refuted theorems are the exceptions the statement names."
  },
  {
   "property": "C20",
   "status": "partial",
   "theorems": [
    "C20_dimension_change",
    "C20_mismatched_delete_refuted",
    "C20_smaller_than_input_refuted"
   ],
   "note": "Refuted: strictly, changing the dimension of any phrase with memory is undefined (scalar delete of an array); C20_dimension_change is what happens when that delete behaves as delete[] and the dimension stays above the input dimension."
  },
  {
   "property": "C21",
   "status": "proved",
   "theorems": [
    "C21_copy",
    "C21_assign",
    "C21_unallocated_refuted"
   ],
   "note": "C21_unallocated_refuted (every phrase without memory) is the exception the statement names."
  },
  {
   "property": "C22",
   "status": "proved",
   "theorems": [
    "C22_statistics"
   ],
   "note": ""
  },
  {
   "property": "C23",
   "status": "proved",
   "theorems": [
    "C23_rescale",
    "C23_bimodal_refuted"
   ],
   "note": "C23_bimodal_refuted is the exception the statement names."
  },
  {
   "property": "C24",
   "status": "proved",
   "theorems": [
    "C24_mirrors",
    "C24_add",
    "C24_remove",
    "C24_remove_class",
    "C24_destroyed_refuted",
    "C24_throw_refuted"
   ],
   "note": "C24_mirrors is the property, for every history of set and phrase operations with defined behaviour; the _refuted theorems show why histories that destroy a set still listening to a phrase, or that make update() throw, are excluded."
  },
  {
   "property": "C25",
   "status": "proved",
   "theorems": [
    "C25_assign",
    "C25_copy_independent",
    "C25_source_independent",
    "C25_copy_constructor_refuted",
    "C25_copy_constructor_empty_refuted"
   ],
   "note": "Proved for assignment (C25_assign, C25_copy_independent, C25_source_independent); the copy constructor is refuted, as the statement says."
  },
  {
   "property": "C26",
   "status": "proved",
   "theorems": [
    "C26_json_round_trip"
   ],
   "note": ""
  },
  {
   "property": "C27",
   "status": "proved",
   "theorems": [
    "C27_statistics",
    "C27_minmax",
    "C27_normalize"
   ],
   "note": ""
  },
  {
   "property": "C28",
   "status": "partial",
   "theorems": [
    "C28_dimension_partial",
    "C28_dimension_refuted"
   ],
   "note": "Refuted (C28_dimension_refuted); C28_dimension_partial gives the dimension changes that do keep the set usable."
  },
  {
   "property": "C29",
   "status": "proved",
   "theorems": [
    "C29_density",
    "C29_throws",
    "C29_floor"
   ],
   "note": ""
  },
  {
   "property": "C30",
   "status": "proved",
   "theorems": [
    "C30_bimodal_is_joint",
    "C30_input_is_submodel"
   ],
   "note": ""
  },
  {
   "property": "C31",
   "status": "proved",
   "theorems": [
    "C31_modes_agree",
    "C31_small_variance_refuted"
   ],
   "note": "C31_modes_agree for variances >= 1e-9, in every dimension; C31_small_variance_refuted for the part the statement calls false."
  },
  {
   "property": "C32",
   "status": "proved",
   "theorems": [
    "C32_conditional_mean",
    "C32_diagonal_mean"
   ],
   "note": ""
  },
  {
   "property": "C33",
   "status": "proved",
   "theorems": [
    "C33_full_round_trip",
    "C33_sizes_refuted",
    "C33_output_covariance_refuted"
   ],
   "note": "Exactly what is restored and what is not, in every arithmetic; the _refuted theorems are the parts the statement calls false."
  },
  {
   "property": "C34",
   "status": "partial",
   "theorems": [
    "C34_own_listener",
    "C34_copy_listener",
    "C34_assigned_refuted",
    "C34_reloaded_refuted",
    "C34_shared_assigned_refuted",
    "C34_shared_reloaded_refuted"
   ],
   "note": "Refuted for assignment and fromJson, for every pair of objects; C34_own_listener and C34_copy_listener give the objects that do react. The shared-parameters half is C34_shared_assigned_refuted and C34_shared_reloaded_refuted."
  },
  {
   "property": "C35",
   "status": "proved",
   "theorems": [
    "C35_any_history",
    "C35_orderly",
    "C35_shrink_refuted",
    "C35_unimodal_input_refuted",
    "C35_off_refused",
    "C35_on_refused_refuted"
   ],
   "note": "C35_any_history and C35_orderly are the claims; the _refuted theorems and C35_off_refused show that the conditions cannot be dropped, as the statement says."
  },
  {
   "property": "C36",
   "status": "proved",
   "theorems": [
    "C36_one_outcome",
    "C36_done",
    "C36_allocate_refuted"
   ],
   "note": "C36_one_outcome for every behaviour of the learning code; C36_done is the undisturbed case; an exception of allocate() is refuted, as the statement says."
  },
  {
   "property": "C37",
   "status": "proved",
   "theorems": [
    "C37_fixed",
    "C37_threshold"
   ],
   "note": "Both halves, for every learning code, in every arithmetic."
  },
  {
   "property": "C38",
   "status": "proved",
   "theorems": [
    "C38_fraction",
    "C38_default_refuted"
   ],
   "note": "Proved over the reals for max >= min; refuted with the default settings in binary64, as the statement says."
  },
  {
   "property": "C39",
   "status": "proved",
   "theorems": [
    "C39_parallel",
    "C39_returns",
    "C39_spurious_refuted"
   ],
   "note": "C39_parallel and C39_returns are the property under sequential consistency; C39_spurious_refuted is the exception the statement names."
  },
  {
   "property": "C40",
   "status": "partial",
   "theorems": [
    "C40_sequential",
    "C40_modes_refuted"
   ],
   "note": "Refuted, for every plan and schedule: Alldone is never emitted by Sequential training and the classes agree exactly when none fails (C40_modes_refuted); per-class events agree."
  },
  {
   "property": "C41",
   "status": "proved",
   "theorems": [
    "C41_background",
    "C41_announced",
    "C41_early_refuted",
    "C41_twice_refuted"
   ],
   "note": "C41_background and C41_announced are the part that holds; C41_early_refuted and C41_twice_refuted are the failures the statement names."
  },
  {
   "property": "C42",
   "status": "proved",
   "theorems": [
    "C42_cancel",
    "C42_in_time",
    "C42_returns",
    "C42_late_refuted",
    "C42_early_refuted"
   ],
   "note": "C42_cancel, C42_in_time, C42_returns are the part that holds; C42_late_refuted and C42_early_refuted are the failures the statement names."
  },
  {
   "property": "C43",
   "status": "partial",
   "theorems": [
    "C43_fits",
    "C43_unfit_refuted",
    "C43_recovers",
    "C43_label",
    "C43_label_refuted"
   ],
   "note": "Refuted for every training set that does not fit (C43_unfit_refuted, C43_label_refuted); C43_fits says exactly when train goes on, C43_recovers how to get out, C43_label the refusal that changes nothing."
  },
  {
   "property": "C44",
   "status": "proved",
   "theorems": [
    "C44_gmm_class",
    "C44_hmm_class",
    "C44_hmm_flag_refuted"
   ],
   "note": "GMM classes get exactly what was asked; HMM classes too apart from the flag hierarchical of the class entry (C44_hmm_flag_refuted), which no class ever reads."
  },
  {
   "property": "C45",
   "status": "partial",
   "theorems": [
    "C45_own",
    "C45_trained_own",
    "C45_copy_refuted",
    "C45_source_safe",
    "C45_assign_refuted",
    "C45_load_refuted"
   ],
   "note": "Refuted for every copy, assignment and load of a model with classes; C45_own/C45_trained_own: it holds for models trained in place; C45_source_safe: changes to the copy never reach the source."
  },
  {
   "property": "C46",
   "status": "proved",
   "theorems": [
    "C46_update",
    "C46_train"
   ],
   "note": "C46_update for one update (also with clusters left empty), C46_train for both initialisations and every iteration limit and threshold. Needs at least one cluster, which the attribute enforces."
  },
  {
   "property": "C47",
   "status": "proved",
   "theorems": [
    "C47_means",
    "C47_unique"
   ],
   "note": ""
  },
  {
   "property": "C48",
   "status": "proved",
   "theorems": [
    "C48_filter",
    "C48_size",
    "C48_no_reset_refuted"
   ],
   "note": "C48_filter after reset(), C48_size for every arithmetic; C48_no_reset_refuted is the part of the statement about a missing reset()."
  },
  {
   "property": "C49",
   "status": "partial",
   "theorems": [
    "C49_copy_refuted",
    "C49_assign_refuted",
    "C49_assign"
   ],
   "note": "Refuted: C49_copy_refuted (every copy) and C49_assign_refuted (every assignment between dimensions); C49_assign gives the case that holds."
  },
  {
   "property": "C50",
   "status": "proved",
   "theorems": [
    "C50_training_weights",
    "C50_any_update"
   ],
   "note": "C50_training_weights: allocate, init and any number of updates in sequence; C50_any_update: one update from any usable state, whatever the regularisation."
  },
  {
   "property": "C51",
   "status": "proved",
   "theorems": [
    "C51_update_moments",
    "C51_small_regularisation_refuted"
   ],
   "note": "C51_update_moments: formulas whenever the update returns, return guaranteed for regularisations of at least the pivot threshold, symmetry and margin of positive definiteness; C51_small_regularisation_refuted is the exception the statement names."
  },
  {
   "property": "C52",
   "status": "proved",
   "theorems": [
    "C52_posteriors"
   ],
   "note": "GMM; the hierarchical HMM shares the model function update_results. Classes in list order, which is label order in a std::map."
  },
  {
   "property": "C53",
   "status": "proved",
   "theorems": [
    "C53_window_mean"
   ],
   "note": ""
  },
  {
   "property": "C54",
   "status": "proved",
   "theorems": [
    "C54_convex"
   ],
   "note": ""
  },
  {
   "property": "C55",
   "status": "partial",
   "theorems": [
    "C55_consistent_modes",
    "C55_refuted"
   ],
   "note": "Refuted in every arithmetic (C55_refuted); C55_consistent_modes: any sequence of observations is processed when the modes agree or the estimator is Likeliest."
  },
  {
   "property": "C56",
   "status": "proved",
   "theorems": [
    "C56_filtering",
    "C56_reset"
   ],
   "note": "Non-hierarchical mode (the mode in which filter computes alpha). C56_reset: every trained class (C59) can be filtered after reset."
  },
  {
   "property": "C57",
   "status": "proved",
   "theorems": [
    "C57_product",
    "C57_smoothed"
   ],
   "note": "C57_smoothed: the smoothed log-likelihood is the window mean."
  },
  {
   "property": "C58",
   "status": "proved",
   "theorems": [
    "C58_occupancies"
   ],
   "note": "The E-step is executed on the model, its outputs shown equal to path-sum occupancies (estep_exact) and consistent."
  },
  {
   "property": "C59",
   "status": "proved",
   "theorems": [
    "C59_leftright",
    "C59_rows",
    "C59_one_frame_refuted"
   ],
   "note": "C59_leftright: no condition but at most 1e90 frames (the normalisation threshold is 1e-100). C59_rows: any topology while row totals stay above 1e-100. C59_one_frame_refuted is the exception the statement names."
  },
  {
   "property": "C60",
   "status": "proved",
   "theorems": [
    "C60_hierarchical",
    "C60_cyclic_refuted"
   ],
   "note": "C60_hierarchical: holds in hierarchical mode, in every arithmetic. C60_cyclic_refuted is the exception the statement names, with the exact row sums."
  },
  {
   "property": "C61",
   "status": "proved",
   "theorems": [
    "C61_hierarchical",
    "C61_hierarchical_refuted",
    "C61_progress"
   ],
   "note": "C61_hierarchical: the likeliest state and the bound 1/(1-qX) that holds in hierarchical mode; C61_hierarchical_refuted: above 1, as the statement says."
  },
  {
   "property": "C62",
   "status": "proved",
   "theorems": [
    "C62_windowed",
    "C62_other",
    "C62_one_state_refuted"
   ],
   "note": "C62_windowed for two or more states; C62_one_state_refuted is the exception the statement names; C62_other: the other estimators."
  },
  {
   "property": "C63",
   "status": "proved",
   "theorems": [
    "C63_normalised",
    "C63_first_refuted"
   ],
   "note": "C63_normalised; C63_first_refuted is the exception the statement names."
  },
  {
   "property": "C64",
   "status": "proved",
   "theorems": [
    "C64_history",
    "C64_ergodic_refuted",
    "C64_exit_refuted"
   ],
   "note": "C64_history: everything observable agrees. C64_ergodic_refuted and C64_exit_refuted are the exceptions the statement names."
  },
  {
   "property": "C65",
   "status": "proved",
   "theorems": [
    "C65_uniform",
    "C65_distributions"
   ],
   "note": "C65_uniform: any arithmetic, all operations but normalizeTransitions; C65_distributions: reals, all operations."
  },
  {
   "property": "C66",
   "status": "partial",
   "theorems": [
    "C66_twice",
    "C66_reset",
    "C66_refuted"
   ],
   "note": "Refuted: C66_refuted; C66_twice gives exactly what is computed instead (each frame counts twice; with an even window 2k, the mean of the last k)."
  },
  {
   "property": "C67",
   "status": "partial",
   "theorems": [
    "C67_assign_refuted",
    "C67_load_refuted"
   ],
   "note": "Refuted: C67_assign_refuted and C67_load_refuted give the fields that are lost."
  },
  {
   "property": "C68",
   "status": "partial",
   "theorems": [
    "C68_positive_definite_succeeds_partial",
    "C68_invertible_succeeds_refuted"
   ],
   "note": "Refuted for tiny entries; holds for positive definite matrices with margin >= the pivot threshold."
  },
  {
   "property": "C69",
   "status": "proved",
   "theorems": [
    "C69_full_to_diagonal",
    "C69_diagonal_to_full",
    "C69_diagonal_again_refuted",
    "C69_full_again_refuted"
   ],
   "note": "Both real changes proved; setting the current mode is refuted, as the statement says."
  },
  {
   "property": "C70",
   "status": "proved",
   "theorems": [
    "C70_round_trip",
    "C70_axes",
    "C70_axis_aligned_refuted"
   ],
   "note": "Proved for correlated dimensions; axis-aligned ellipses are refuted in binary64, as the statement says."
  },
  {
   "property": "C71",
   "status": "proved",
   "theorems": [
    "C71_round_trip",
    "C71_early_names_refuted"
   ],
   "note": "C71_round_trip; early names are refuted, as the statement says."
  },
  {
   "property": "C72",
   "status": "proved",
   "theorems": [
    "C72_gmm_round_trip",
    "C72_hmm_round_trip_refuted",
    "C72_assignment",
    "C72_smallest_refuted"
   ],
   "note": "Exactly what comes back, for GMM and HMM; the _refuted theorems are the parts the statement calls false."
  },
  {
   "property": "C73",
   "status": "proved",
   "theorems": [
    "C73_biased",
    "C73_short",
    "C73_random"
   ],
   "note": ""
  },
  {
   "property": "C74",
   "status": "proved",
   "theorems": [
    "C74_initialisation",
    "C74_short_phrase_refuted"
   ],
   "note": "C74_short_phrase_refuted is the exception the statement names."
  },
  {
   "property": "C75",
   "status": "proved",
   "theorems": [
    "C75_update",
    "C75_updates"
   ],
   "note": "hmm_reestimated in Spec_HMM.v is the specification. C75_updates: a left-right class stays ready after any number of updates."
  },
  {
   "property": "C76",
   "status": "proved",
   "theorems": [
    "C76_classes",
    "C76_add_refuted",
    "C76_remove_refuted",
    "C76_join_refuted"
   ],
   "note": "C76_classes (any arithmetic); the _refuted theorems are the exceptions the statement names."
  },
  {
   "property": "C77",
   "status": "proved",
   "theorems": [
    "C77_filtering",
    "C77_posterior"
   ],
   "note": "C77_filtering: everything a hierarchical filter reports. The flat model is defined in Spec_HHMM.v with the weights the code uses, including its departures from a probability model (see C78)."
  },
  {
   "property": "C78",
   "status": "proved",
   "theorems": [
    "C78_bounded",
    "C78_gain",
    "C78_weights",
    "C78_refuted"
   ],
   "note": "C78_bounded; C78_gain, C78_weights and C78_refuted are the exception the statement names."
  },
  {
   "property": "C79",
   "status": "proved",
   "theorems": [
    "C79_refuted",
    "C79_leftright"
   ],
   "note": "C79_leftright; C79_refuted is the exception the statement names."
  },
  {
   "property": "C80",
   "status": "proved",
   "theorems": [
    "C80_same_recognition",
    "C80_diagonal_refuted",
    "C80_before_reset_refuted",
    "C80_training"
   ],
   "note": "C80_same_recognition, for any arithmetic; C80_training: training produces models that meet its hypothesis. The _refuted theorems are the exceptions the statement names."
  },
  {
   "property": "C81",
   "status": "proved",
   "theorems": [
    "C81_copies",
    "C81_class",
    "C81_window_refuted"
   ],
   "note": "C81_copies and C81_class, for any arithmetic; C81_window_refuted is the exception the statement names."
  },
  {
   "property": "C82",
   "status": "proved",
   "theorems": [
    "C82_same_recognition",
    "C82_flag",
    "C82_diagonal_refuted",
    "C82_before_reset_refuted",
    "C82_training",
    "C82_flag_refuted"
   ],
   "note": "C82_same_recognition, for any arithmetic; C82_training: training with at least one update produces classes that meet its hypotheses. C82_flag says what is lost; the _refuted theorems are the exceptions the statement names. The exit likelihood and ratio are not part of the report compared."
  },
  {
   "property": "C83",
   "status": "proved",
   "theorems": [
    "C83_copies",
    "C83_flag_refuted"
   ],
   "note": "C83_copies, for any arithmetic; C83_flag_refuted is the exception the statement names. The exit likelihood and ratio are not part of the report compared."
  },
  {
   "property": "C84",
   "status": "proved",
   "theorems": [
    "C84_initialisation",
    "C84_one_gaussian",
    "C84_short_refuted"
   ],
   "note": "C84_initialisation and C84_one_gaussian for training sets with a phrase of at least one frame per state and component; C84_short_refuted is the exception the statement names. Nothing is claimed between these two cases (a phrase with a frame per state, none with a frame per state and component)."
  },
  {
   "property": "C85",
   "status": "proved",
   "theorems": [
    "C85_update",
    "C85_training",
    "C85_likelihood_refuted"
   ],
   "note": "C85_update for any update that leaves invertible covariances, C85_training for trainings from the initialisation; C85_likelihood_refuted is the drop the statement names."
  },
  {
   "property": "C86",
   "status": "proved",
   "theorems": [
    "C86_update",
    "C86_training",
    "C86_likelihood_refuted"
   ],
   "note": "C86_update for any update, C86_training for trainings from the initialisation, C86_likelihood_refuted for the drop the statement names. No bound is given for LeftRight models trained on several phrases, whose rows can exceed one before emAlgorithmTerminate normalises them."
  },
  {
   "property": "C87",
   "status": "proved",
   "theorems": [
    "C87_frames",
    "C87_recording",
    "C87_set_up",
    "C87_training",
    "C87_updates",
    "C87_classes_independent",
    "C87_recognition"
   ],
   "note": "C87_recording, C87_frames, C87_set_up, C87_training, C87_updates, C87_classes_independent and C87_recognition compose. Training of the classes is modelled one class after the other; the interleavings of the threads are in C39-C43."
  },
  {
   "property": "C88",
   "status": "proved",
   "theorems": [
    "C88_threads",
    "C88_sequential_refuted"
   ],
   "note": "C88_threads; C88_sequential_refuted is the exception the statement names, for every training set."
  },
  {
   "property": "C89",
   "status": "proved",
   "theorems": [
    "C89_learnable",
    "C89_training",
    "C89_updates",
    "C89_classes_independent",
    "C89_recognition",
    "C89_flat"
   ],
   "note": "C89_training, C89_learnable, C89_updates, C89_classes_independent, C89_recognition and C89_flat compose with C87_recording. Training of the classes is modelled one class after the other; the interleavings of the threads are in C39-C43."
  },
  {
   "property": "C90",
   "status": "proved",
   "theorems": [
    "C90_threads",
    "C90_sequential_refuted",
    "C90_flat_ergodic_refuted"
   ],
   "note": "C90_threads; C90_sequential_refuted and C90_flat_ergodic_refuted are the exceptions the statement names, for every training set."
  },
  {
   "property": "C91",
   "status": "proved",
   "theorems": [
    "C91_rejected",
    "C91_one",
    "C91_all",
    "C91_later",
    "C91_sequential_refuted"
   ],
   "note": "C91_rejected, C91_one, C91_all and C91_later; C91_sequential_refuted is the exception the statement names, for every training set. Training in threads is modelled as if joined before anything else is called."
  },
  {
   "property": "C92",
   "status": "partial",
   "theorems": [
    "C92_cancel",
    "C92_cancel_reported",
    "C92_cancel_announced",
    "C92_retrain_refuted",
    "C92_remove_refuted",
    "C92_over",
    "C92_remove_freed_refuted",
    "C92_cancel_lost_refuted"
   ],
   "note": "Refuted for train(set, label) (C92_retrain_refuted) and removeClass(label) (C92_remove_refuted, C92_remove_freed_refuted), in every execution in which another class is still training; C92_cancel_lost_refuted is an execution in which cancelTraining(label) loses the end of the training. What holds of cancelTraining(label) is proved: C92_cancel, C92_cancel_reported, C92_cancel_announced, C92_over."
  },
  {
   "property": "C93",
   "status": "proved",
   "theorems": [
    "C93_rejected",
    "C93_one",
    "C93_all",
    "C93_later",
    "C93_states_refuted",
    "C93_flat_refuted",
    "C93_sequential_refuted"
   ],
   "note": "C93_rejected, C93_one, C93_all and C93_later; C93_states_refuted, C93_sequential_refuted and C93_flat_refuted are the exceptions the statement names, for every training set. Training in threads is modelled as if joined before anything else is called."
  },
  {
   "property": "C94",
   "status": "proved",
   "theorems": [
    "C94_diagonal",
    "C94_any_mixture",
    "C94_weights"
   ],
   "note": "C94_diagonal (complete for Diagonal covariances), C94_any_mixture (any covariances; instant posteriors unless the sum overflows) and C94_weights. Doubles are SpecFloat binary64, shown equal to the correctly rounded operations of Flocq; exp and log are arbitrary functions within the bounds of libm_f64. Observations are doubles (the C++ floats are some of them)."
  },
  {
   "property": "C95",
   "status": "proved",
   "theorems": [
    "C95_constant_dimension",
    "C95_short_values",
    "C95_training_fails"
   ],
   "note": "C95_constant_dimension (the exact value), C95_short_values (zero) and C95_training_fails (universal refutation under the stated inequality, with the default parameters and 200.3 as witness). The products are IEEE single precision (no excess precision), all other operations binary64."
  },
  {
   "property": "C96",
   "status": "proved",
   "theorems": [
    "C96_forward",
    "C96_null_likelihood",
    "C96_smoothed_refuted"
   ],
   "note": "C96_forward (forward variables and instant posteriors, every sequence of frames), C96_null_likelihood (what a null likelihood does to the window, for every model) and C96_smoothed_refuted (the smoothed posteriors can all be NaN after finite frames, with the witness beside it). exp and log are arbitrary functions within the bounds of libm_f64. LeftRight classes only."
  },
  {
   "property": "C97",
   "status": "proved",
   "theorems": [
    "C97_flat"
   ],
   "note": "C97_flat, for every sequence of frames. exp and log are arbitrary functions within the bounds of libm_f64. The regression outputs are in C100."
  },
  {
   "property": "C98",
   "status": "proved",
   "theorems": [
    "C98_update",
    "C98_training",
    "C98_components",
    "C98_recognition",
    "C98_lost_component"
   ],
   "note": "C98_update, C98_training (from allocation and K-Means initialisation), C98_components (bounds, or a lost component that comes back), C98_recognition (composition with C94), C98_lost_component (a class whose component loses its mean; whether training from the initialisation can reach such a class is not settled). Updates that throw (a variance that is not positive) are outside the statement."
  },
  {
   "property": "C99",
   "status": "proved",
   "theorems": [
    "C99_class",
    "C99_model",
    "C99_trained",
    "C99_lost"
   ],
   "note": "C99_class, C99_model (any frames), C99_trained (composition with C98), C99_lost (Mixture estimator). Frames on which filter throws are outside the statement. Full covariances are not covered."
  },
  {
   "property": "C100",
   "status": "proved",
   "theorems": [
    "C100_outputs",
    "C100_variances",
    "C100_one_state_refuted"
   ],
   "note": "C100_outputs, C100_variances (any frames, every estimator), C100_one_state_refuted (the exception, for every model and sequence). Frames on which filter throws are outside the statement. Full covariances and the hierarchical mode are not covered."
  },
  {
   "property": "C101",
   "status": "partial",
   "theorems": [
    "C101_hull",
    "C101_full",
    "C101_full_refuted",
    "C101_one_state_refuted"
   ],
   "note": "Refuted for the Full estimator, the default (C101_full, C101_full_refuted: universal, not one counterexample) and for the Windowed estimator with one state (C101_one_state_refuted). C101_hull is the claim for the other estimators. In real arithmetic, from a fresh model."
  },
  {
   "property": "C102",
   "status": "proved",
   "theorems": [
    "C102_filter",
    "C102_accuracy",
    "C102_training",
    "C102_many_refuted",
    "C102_nan_refuted"
   ],
   "note": "C102_filter holds for all floats; C102_accuracy and C102_training bound the errors; C102_many_refuted and C102_nan_refuted are universal. binary32 with every operation rounded. Random initialisation is not covered: its right-hand side is computed in double."
  },
  {
   "property": "C103",
   "status": "proved",
   "theorems": [
    "C103_calls",
    "C103_answers",
    "C103_training",
    "C103_history",
    "C103_equal"
   ],
   "note": "C103_calls characterises undefined behaviour for all histories; the quotient 0/0 of the stopping test, where exact arithmetic and the machine differ, is covered by C103_equal."
  },
  {
   "property": "C104",
   "status": "partial",
   "theorems": [
    "C104_settings",
    "C104_reachable",
    "C104_load",
    "C104_missing",
    "C104_model_refuted"
   ],
   "note": "Refuted for models (C104_model_refuted: nothing is saved or loaded, for every model and observation). C104_settings, C104_reachable, C104_load and C104_missing prove the claims about settings, for every arithmetic."
  },
  {
   "property": "C105",
   "status": "proved",
   "theorems": [
    "C105_classes",
    "C105_likeliest",
    "C105_mixture_refuted",
    "C105_variances",
    "C105_learned_refuted"
   ],
   "note": "C105_classes, C105_likeliest and C105_variances (any frames, every estimator of the classes), C105_mixture_refuted (for every model and sequence) and C105_learned_refuted (counterexample to outputs near what was learned). Frames on which filter throws are outside the statement. C105_variances takes b up to 75. Full covariances and Ergodic classes are not covered."
  },
  {
   "property": "C106",
   "status": "partial",
   "theorems": [
    "C106_full",
    "C106_windowed",
    "C106_likeliest_refuted"
   ],
   "note": "Refuted with the Likeliest estimator (C106_likeliest_refuted, for every class) and with the Windowed estimator (C106_windowed gives the factor). C106_full proves it with the Full estimator. Nothing of the statement is left open; hierarchical mode is not covered here (C105_variances bounds its variances)."
  },
  {
   "property": "C107",
   "status": "partial",
   "theorems": [
    "C107_classes",
    "C107_likeliest",
    "C107_mixture_refuted",
    "C107_hierarchical",
    "C107_independent"
   ],
   "note": "Refuted with the Mixture estimator (C107_mixture_refuted gives what is reported, and that it is strictly more than the variance of the output for every model with two classes or more and positive variances). C107_classes and C107_likeliest prove the rest for GMMs, C107_hierarchical and C107_independent the part about HMMs, from what the classes report (C106 compares that with the covariances of the classes outside hierarchical mode). Nothing of the statement is left open."
  }
 ]
}