# What `Print Assumptions` lists for each theorem

The output itself is printed by the build, under each theorem. All axioms are those of the standard library's real numbers.

## Nothing ("Closed under the global context")

C01_history, C01_set_all_or_nothing, C02_any_history_refuted, C02_in_limits, C03_numbers_in_range,
C03_rejects_everything_else_refuted, C04_assignment_keeps_listener_refuted, C04_copy_constructor_partial,
C05_vector_history, C05_vector_set, C06_notify_exactly_once, C07_ring_holds_last_values,
C07_ring_wf_reachable, C07_single_channel, C09_resize_keeps_refuted, C09_resize_not_full_partial, C104_load,
C104_missing, C104_reachable, C104_settings, C15_no_overrun, C15_rejects_non_array, C15_rejects_size,
C15_round_trip, C16_recorded_frames, C17_rejections, C17_throw_changes_nothing, C18_clear_input_refuted,
C18_empty, C19_dimensions_refuted, C19_empty_phrase_refuted, C19_json_round_trip, C20_dimension_change,
C20_mismatched_delete_refuted, C20_smaller_than_input_refuted, C21_assign, C21_copy, C21_unallocated_refuted,
C23_bimodal_refuted, C23_rescale, C24_add, C24_destroyed_refuted, C24_mirrors, C24_remove, C24_remove_class,
C24_throw_refuted, C25_assign, C25_copy_constructor_empty_refuted, C25_copy_constructor_refuted,
C25_copy_independent, C25_source_independent, C26_json_round_trip, C28_dimension_partial,
C28_dimension_refuted, C29_floor, C33_full_round_trip, C33_output_covariance_refuted, C33_sizes_refuted,
C34_assigned_refuted, C34_copy_listener, C34_own_listener, C34_reloaded_refuted, C34_shared_assigned_refuted,
C34_shared_reloaded_refuted, C35_any_history, C35_off_refused, C35_on_refused_refuted, C35_orderly,
C35_shrink_refuted, C35_unimodal_input_refuted, C36_allocate_refuted, C36_done, C36_one_outcome, C37_fixed,
C37_threshold, C38_default_refuted, C39_parallel, C39_returns, C39_spurious_refuted, C40_modes_refuted,
C40_sequential, C41_announced, C41_background, C41_early_refuted, C41_twice_refuted, C42_cancel,
C42_early_refuted, C42_in_time, C42_late_refuted, C42_returns, C43_fits, C43_label, C43_label_refuted,
C43_recovers, C43_unfit_refuted, C44_gmm_class, C44_hmm_class, C44_hmm_flag_refuted, C45_assign_refuted,
C45_copy_refuted, C45_load_refuted, C45_own, C45_source_safe, C45_trained_own, C48_size, C49_assign_refuted,
C49_copy_refuted, C55_refuted, C60_hierarchical, C65_uniform, C67_assign_refuted, C67_load_refuted,
C69_diagonal_again_refuted, C70_axis_aligned_refuted, C71_early_names_refuted, C71_round_trip,
C72_assignment, C72_gmm_round_trip, C72_hmm_round_trip_refuted, C72_smallest_refuted,
C74_short_phrase_refuted, C76_add_refuted, C76_classes, C80_before_reset_refuted, C80_diagonal_refuted,
C80_same_recognition, C80_training, C81_class, C81_copies, C81_window_refuted, C82_before_reset_refuted,
C82_diagonal_refuted, C82_flag, C82_flag_refuted, C82_same_recognition, C82_training, C83_copies,
C83_flag_refuted, C92_cancel, C92_cancel_announced, C92_cancel_lost_refuted, C92_cancel_reported, C92_over,
C92_remove_freed_refuted, C92_remove_refuted, C92_retrain_refuted, C99_lost

## `ClassicalDedekindReals.sig_forall_dec`, `FunctionalExtensionality.functional_extensionality_dep`

C47_unique

## `ClassicalDedekindReals.sig_forall_dec`, `ClassicalDedekindReals.sig_not_dec`, `FunctionalExtensionality.functional_extensionality_dep`

C103_equal

## `ClassicalDedekindReals.sig_forall_dec`, `ClassicalDedekindReals.sig_not_dec`, `Classical_Prop.classic`, `FunctionalExtensionality.functional_extensionality_dep`

C08_ring_mean, C100_one_state_refuted, C100_outputs, C100_variances, C101_full, C101_full_refuted, C101_hull,
C101_one_state_refuted, C102_accuracy, C102_filter, C102_many_refuted, C102_nan_refuted, C102_training,
C103_answers, C103_calls, C103_history, C103_training, C104_model_refuted, C105_classes,
C105_learned_refuted, C105_likeliest, C105_mixture_refuted, C105_variances, C106_full,
C106_likeliest_refuted, C106_windowed, C107_classes, C107_hierarchical, C107_independent, C107_likeliest,
C107_mixture_refuted, C10_product, C10_transpose, C10_transpose_involutive, C10_transpose_of_product,
C11_pinv_square, C11_two_sided_inverse, C12_refuses_singular, C13_determinant_up_to_sign,
C13_determinant_without_exchange, C13_sign_refuted, C14_one_sided_inverse, C15_size_zero_refuted,
C22_statistics, C27_minmax, C27_normalize, C27_statistics, C29_density, C29_throws, C30_bimodal_is_joint,
C30_input_is_submodel, C31_modes_agree, C31_small_variance_refuted, C32_conditional_mean, C32_diagonal_mean,
C38_fraction, C46_train, C46_update, C47_means, C48_filter, C48_no_reset_refuted, C49_assign, C50_any_update,
C50_training_weights, C51_small_regularisation_refuted, C51_update_moments, C52_posteriors, C53_window_mean,
C54_convex, C55_consistent_modes, C56_filtering, C56_reset, C57_product, C57_smoothed, C58_occupancies,
C59_leftright, C59_one_frame_refuted, C59_rows, C60_cyclic_refuted, C61_hierarchical,
C61_hierarchical_refuted, C61_progress, C62_one_state_refuted, C62_other, C62_windowed, C63_first_refuted,
C63_normalised, C64_ergodic_refuted, C64_exit_refuted, C64_history, C65_distributions, C66_refuted,
C66_reset, C66_twice, C68_invertible_succeeds_refuted, C68_positive_definite_succeeds_partial,
C69_diagonal_to_full, C69_full_again_refuted, C69_full_to_diagonal, C70_axes, C70_round_trip, C73_biased,
C73_random, C73_short, C74_initialisation, C75_update, C75_updates, C76_join_refuted, C76_remove_refuted,
C77_filtering, C77_posterior, C78_bounded, C78_gain, C78_refuted, C78_weights, C79_leftright, C79_refuted,
C84_initialisation, C84_one_gaussian, C84_short_refuted, C85_likelihood_refuted, C85_training, C85_update,
C86_likelihood_refuted, C86_training, C86_update, C87_classes_independent, C87_frames, C87_recognition,
C87_recording, C87_set_up, C87_training, C87_updates, C88_sequential_refuted, C88_threads,
C89_classes_independent, C89_flat, C89_learnable, C89_recognition, C89_training, C89_updates,
C90_flat_ergodic_refuted, C90_sequential_refuted, C90_threads, C91_all, C91_later, C91_one, C91_rejected,
C91_sequential_refuted, C93_all, C93_flat_refuted, C93_later, C93_one, C93_rejected, C93_sequential_refuted,
C93_states_refuted, C94_any_mixture, C94_diagonal, C94_weights, C95_constant_dimension, C95_short_values,
C95_training_fails, C96_forward, C96_null_likelihood, C96_smoothed_refuted, C97_flat, C98_components,
C98_lost_component, C98_recognition, C98_training, C98_update, C99_class, C99_model, C99_trained
