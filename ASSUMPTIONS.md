# Print Assumptions of every claimed theorem

Generated by tools/gen_assumptions.py after a build. All names below are from Coq's standard library
(real-number axiomatisation, functional extensionality, excluded middle, primitive floats).

## Closed under the global context

C01_accepts_exactly, C01_accessors, C02_copy_default, C02_copy_shape, C03_eyes, C03_eyes_bad, C03_gaussian, C03_invalid_shape, C03_ones, C03_zeros, C04_copy, C04_copy_empty, C04_default_empty, C05_dest_without_buffer, C05_equal_count, C05_from_empty, C05_larger_dest, C05_smaller_dest, C06_move_assign, C06_self_move, C07_elementwise, C08_broadcast, C08_leading_zero_undef, C08_one_axis, C09_accepts, C09_pow, C104_backprop, C104_backprop_fails, C104_forward, C104_forward_fails, C104_update, C104_update_with, C105_minibatch, C105_online, C105_predict, C105_training, C10_maps, C11_eps_zero, C11_equal_shapes, C11_scalar, C11_shapes_not_checked, C11_shapes_not_checked_eps, C12_matmul, C12_rejects, C13_replace, C13_reuse, C14_left_alias_races, C14_right_alias_wrong, C14_schedules_differ, C15_extreme, C15_rejects, C16_axis, C16_rank, C16_total, C17_loop, C17_operators, C17_race_free, C18_memory_safe, C18_with_leaks, C19_reshape, C20_scalar_tensor, C21_assign_value, C21_leak_count, C26_nan, C27_any_arithmetic, C28_no_memory, C28_predict, C28_rows_independent, C33_trainer, C34_predict, C34_total, C36_momentum, C36_sgd, C36_trainer, C37_batch, C37_skipped, C38_batches, C38_coverage, C38_equal_size, C38_throws, C39_throws, C39_whole_set, C40_cost, C40_epoch, C40_missing_labels, C43_disjoint_unaffected, C43_shared, C43_training_moves_original, C44_batch_plain, C44_batch_restart, C44_kept, C44_momentum_plain, C44_momentum_restart, C44_sgd_plain, C44_sgd_restart, C45_copy, C45_forward, C45_k_copies, C45_network, C46_same_seed, C46_single_weight, C47_exact, C47_identity, C47_layers, C47_roundtrip, C47_unopenable, C47_unreadable, C48_crash, C48_crash_all, C48_short, C48_sticky, C49_new, C50_negative_stride, C50_rows, C50_stride, C51_assign, C51_assign_rest, C51_copy, C51_default, C51_maxpool_assign, C51_maxpool_copy, C51_self, C53_objects, C53_sticky, C53_uninitialised, C54_objects, C55_hidden_accessors, C55_output_accessors, C55_randomize_hidden, C55_randomize_output, C55_setlrate, C55_setlrate_forward, C56_batch, C56_momentum, C56_sgd, C56_trainer, C57_caller, C57_check, C57_issame, C57_no_hidden, C57_repeat, C57_returns, C58_momentum, C58_trainer, C59_delta_use, C59_identity, C59_needs_forward, C59_throws, C60_max_dense, C60_max_size, C60_mean_dense, C61_batch, C61_momentum, C61_sgd, C61_trainer, C64_batch, C64_sgd, C65_constructed, C65_getoutput_after_backprop, C65_getoutput_throws, C65_network, C65_value, C66_batch, C66_momentum, C66_same_function, C66_sgd, C66_trainer, C67_access, C67_addcol, C67_addrow, C67_blocks, C67_flips, C67_repeat, C68_counters, C68_isolation, C68_safe, C68_unbound, C69_feed, C69_layers, C69_reassigned, C69_success, C71_batch, C71_future, C71_layer, C71_momentum, C71_passes, C71_refines, C71_retry, C71_sgd, C71_trainer, C72_batch, C72_batch_pairing, C72_forward, C72_momentum, C72_sgd, C72_sgd_short, C72_sgd_surplus, C72_trainer, C73_argmax, C73_backward, C73_getters, C73_input, C73_new, C73_output_copies, C73_param, C73_unusable, C73_update, C73_update_first, C74_meanpool, C74_pool_backprop, C74_programs, C74_update, C75_frame, C75_values, C76_outputs, C76_twins, C80_batch, C80_not_saved, C80_same_file, C80_same_trainer, C80_sgd, C80_trainer, C85_bad_label, C85_built, C85_spiral, C85_xor, C95_all, C95_blind, C95_costs, C95_example, C95_ieee, C95_spread, C95_sticky, C97_assign, C97_assign_other, C97_copy, C97_decay, C97_default, C97_empty, C97_objects, C99_oversized_filter, C99_short, C99_surplus, C99_unfitting_filter

## `ClassicalDedekindReals.sig_forall_dec`, `FunctionalExtensionality.functional_extensionality_dep`

C81_closed, C90_laws

## `ClassicalDedekindReals.sig_forall_dec`, `ClassicalDedekindReals.sig_not_dec`, `Classical_Prop.classic`, `FunctionalExtensionality.functional_extensionality_dep`

C100_converges, C100_step, C101_converges, C102_batch, C102_pass, C102_sgd, C103_converges, C105_best, C12_real, C12_real_acc, C16_real, C22_smooth, C23_at_kinks, C23_away_from_kinks, C24_lecuntanh, C25_monotone, C25_ranges, C26_exact_contrast, C27_forward, C29_entries_hidden, C29_entries_output, C29_gradient, C29_regularised, C29_well_sized, C30_ascent, C30_gradient, C31_classes, C31_crossentropy, C31_param, C31_quadratic, C31_wrong, C32_cost, C32_objective, C35_crossentropy, C35_kl, C35_quadratic, C35_softmax, C41_average, C42_not_plain, C42_zero, C46_normalisation, C49_forward, C52_max, C52_mean, C52_single, C53_range, C54_backprop, C54_distribution, C54_not_jacobian, C54_order, C54_shift, C57_linear, C57_one_good_entry, C57_self, C59_backprop, C62_mean, C62_minibatch, C62_order, C62_pick_self, C63_constructed, C63_contraction, C63_converges, C63_descent, C63_history, C63_single, C67_addcols, C67_addrows, C67_elementwise, C67_extrema, C67_sums, C70_activations, C70_any_order, C70_binary64, C70_network, C70_predict, C77_dead, C77_regularised, C77_relu, C77_revived, C77_shrinks, C78_fixed, C78_kl, C79_checkpoint, C79_overflow, C79_survives, C79_weight, C80_second, C80_sixdigits, C81_checkpoint, C81_forward, C81_predict, C82_conserved, C82_drift, C82_one_call, C83_answers, C83_hidden_units, C83_odd, C83_training, C84_answers, C84_training, C86_constructed, C86_limit, C86_monotone, C86_optimum, C86_rate, C86_runs, C87_logistic, C87_softmax, C88_before, C88_mistakes, C88_regret, C88_sgd, C89_conserved, C89_duplicate, C89_onehot, C89_shrink, C89_unused, C90_equation, C90_meaning, C91_constants, C91_example, C91_lipschitz, C91_predict, C92_affine, C92_collapse, C92_convex, C92_example, C92_monotone, C92_rescale, C92_scalable, C92_xor, C93_classes, C93_example, C93_fit, C93_only, C94_below, C94_example, C94_limit, C94_rate, C94_runs, C96_activations, C96_bounded, C96_momentum, C96_single, C98_border, C98_direction, C98_diverges, C98_objective, C98_one_sample
