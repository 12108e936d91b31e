{
 "claims": [
  {
   "property": "C01",
   "status": "proved",
   "theorems": [
    "C01_accepts_exactly",
    "C01_accessors"
   ],
   "note": "Shape construction accepts exactly the valid shapes and computes row-major strides"
  },
  {
   "property": "C02",
   "status": "proved",
   "theorems": [
    "C02_copy_shape",
    "C02_copy_default"
   ],
   "note": "Copying a shape reproduces it; copying a default-constructed shape aborts"
  },
  {
   "property": "C03",
   "status": "proved",
   "theorems": [
    "C03_zeros",
    "C03_ones",
    "C03_eyes",
    "C03_eyes_bad",
    "C03_invalid_shape",
    "C03_gaussian"
   ],
   "note": "Zeros, Ones, Eyes and the shape constructor fill every element correctly"
  },
  {
   "property": "C04",
   "status": "proved",
   "theorems": [
    "C04_copy",
    "C04_copy_empty",
    "C04_default_empty"
   ],
   "note": "Copy and move construction make independent deep copies"
  },
  {
   "property": "C05",
   "status": "proved",
   "theorems": [
    "C05_equal_count",
    "C05_larger_dest",
    "C05_smaller_dest",
    "C05_dest_without_buffer",
    "C05_from_empty"
   ],
   "note": "Copy assignment copies iff the element counts agree"
  },
  {
   "property": "C06",
   "status": "proved",
   "theorems": [
    "C06_move_assign",
    "C06_self_move"
   ],
   "note": "Move assignment transfers the buffer, empties the source and abandons the old buffer"
  },
  {
   "property": "C07",
   "status": "proved",
   "theorems": [
    "C07_elementwise"
   ],
   "note": "Element-wise binary operators on equal shapes"
  },
  {
   "property": "C08",
   "status": "proved",
   "theorems": [
    "C08_broadcast",
    "C08_one_axis",
    "C08_leading_zero_undef"
   ],
   "note": "Broadcasting over one missing leading axis; exact result for more"
  },
  {
   "property": "C09",
   "status": "proved",
   "theorems": [
    "C09_accepts",
    "C09_pow"
   ],
   "note": "Element-wise operators accept exactly suffix-compatible shapes"
  },
  {
   "property": "C10",
   "status": "proved",
   "theorems": [
    "C10_maps"
   ],
   "note": "Tensor-scalar operators and unary maths functions are element-wise"
  },
  {
   "property": "C11",
   "status": "proved",
   "theorems": [
    "C11_equal_shapes",
    "C11_scalar",
    "C11_shapes_not_checked",
    "C11_shapes_not_checked_eps",
    "C11_eps_zero"
   ],
   "note": "Equality returns a 0/1 mask; shapes are not checked"
  },
  {
   "property": "C12",
   "status": "proved",
   "theorems": [
    "C12_matmul",
    "C12_rejects",
    "C12_real_acc",
    "C12_real"
   ],
   "note": "matmul into a fresh tensor is the matrix product"
  },
  {
   "property": "C13",
   "status": "proved",
   "theorems": [
    "C13_reuse",
    "C13_replace"
   ],
   "note": "matmul into a caller-supplied tensor"
  },
  {
   "property": "C14",
   "status": "proved",
   "theorems": [
    "C14_left_alias_races",
    "C14_schedules_differ",
    "C14_right_alias_wrong"
   ],
   "note": "matmul is not safe when the output aliases an operand"
  },
  {
   "property": "C15",
   "status": "proved",
   "theorems": [
    "C15_extreme",
    "C15_rejects"
   ],
   "note": "argmax/argmin return the extreme value of each row/column"
  },
  {
   "property": "C16",
   "status": "proved",
   "theorems": [
    "C16_total",
    "C16_axis",
    "C16_rank",
    "C16_real"
   ],
   "note": "reduce_sum / reduce_mean"
  },
  {
   "property": "C17",
   "status": "proved",
   "theorems": [
    "C17_loop",
    "C17_operators",
    "C17_race_free"
   ],
   "note": "Parallel loops are race-free and schedule-independent"
  },
  {
   "property": "C18",
   "status": "proved",
   "theorems": [
    "C18_memory_safe",
    "C18_with_leaks"
   ],
   "note": "Memory safety and no leak over arbitrary histories of well-typed tensor operations"
  },
  {
   "property": "C19",
   "status": "proved",
   "theorems": [
    "C19_reshape"
   ],
   "note": "Reshape keeps the elements"
  },
  {
   "property": "C20",
   "status": "proved",
   "theorems": [
    "C20_scalar_tensor"
   ],
   "note": "A one-value tensor cannot be destroyed without undefined behaviour"
  },
  {
   "property": "C21",
   "status": "proved",
   "theorems": [
    "C21_assign_value",
    "C21_leak_count"
   ],
   "note": "Assigning a computed tensor to an existing one leaks its buffer each time"
  },
  {
   "property": "C22",
   "status": "proved",
   "theorems": [
    "C22_smooth"
   ],
   "note": "Smooth activations: actd is the derivative of act"
  },
  {
   "property": "C23",
   "status": "proved",
   "theorems": [
    "C23_away_from_kinks",
    "C23_at_kinks"
   ],
   "note": "Kinked activations: derivative away from kinks, one-sided at kinks"
  },
  {
   "property": "C24",
   "status": "proved",
   "theorems": [
    "C24_lecuntanh"
   ],
   "note": "lecuntanh derivative is only approximate"
  },
  {
   "property": "C25",
   "status": "proved",
   "theorems": [
    "C25_ranges",
    "C25_monotone"
   ],
   "note": "Activation ranges and monotonicity"
  },
  {
   "property": "C26",
   "status": "proved",
   "theorems": [
    "C26_nan",
    "C26_exact_contrast"
   ],
   "note": "Activation gradients overflow to NaN in floating point"
  },
  {
   "property": "C27",
   "status": "proved",
   "theorems": [
    "C27_forward",
    "C27_any_arithmetic"
   ],
   "note": "Dense layer forward pass"
  },
  {
   "property": "C28",
   "status": "proved",
   "theorems": [
    "C28_rows_independent",
    "C28_predict",
    "C28_no_memory"
   ],
   "note": "Batch rows are processed independently"
  },
  {
   "property": "C29",
   "status": "proved",
   "theorems": [
    "C29_well_sized",
    "C29_gradient",
    "C29_entries_output",
    "C29_entries_hidden",
    "C29_regularised"
   ],
   "note": "Back-propagated gradients are the true gradients of the cost"
  },
  {
   "property": "C30",
   "status": "proved",
   "theorems": [
    "C30_gradient",
    "C30_ascent"
   ],
   "note": "The Kullback-Leibler output back-propagates the negated gradient"
  },
  {
   "property": "C31",
   "status": "proved",
   "theorems": [
    "C31_param",
    "C31_classes",
    "C31_quadratic",
    "C31_crossentropy",
    "C31_wrong"
   ],
   "note": "Custom activations in the built-in outputs are ignored by the delta"
  },
  {
   "property": "C32",
   "status": "proved",
   "theorems": [
    "C32_objective",
    "C32_cost"
   ],
   "note": "A training step with small learning rate decreases the cost"
  },
  {
   "property": "C33",
   "status": "proved",
   "theorems": [
    "C33_trainer"
   ],
   "note": "update applies W - lrate*grad to all layers with gradients taken before any weight changes"
  },
  {
   "property": "C34",
   "status": "proved",
   "theorems": [
    "C34_predict",
    "C34_total"
   ],
   "note": "predict returns the first maximal class and its score"
  },
  {
   "property": "C35",
   "status": "proved",
   "theorems": [
    "C35_quadratic",
    "C35_crossentropy",
    "C35_softmax",
    "C35_kl"
   ],
   "note": "Cost functions: signs and minima"
  },
  {
   "property": "C36",
   "status": "proved",
   "theorems": [
    "C36_trainer",
    "C36_sgd",
    "C36_momentum"
   ],
   "note": "Learning-rate decay fires exactly once, at call number step"
  },
  {
   "property": "C37",
   "status": "proved",
   "theorems": [
    "C37_batch",
    "C37_skipped"
   ],
   "note": "BatchTrainer decay can be skipped over"
  },
  {
   "property": "C38",
   "status": "proved",
   "theorems": [
    "C38_batches",
    "C38_coverage",
    "C38_equal_size",
    "C38_throws"
   ],
   "note": "BatchTrainer covers all samples with equal-size cyclic batches"
  },
  {
   "property": "C39",
   "status": "proved",
   "theorems": [
    "C39_throws",
    "C39_whole_set"
   ],
   "note": "BatchTrainer cannot report a cost unless the batch is the whole data set"
  },
  {
   "property": "C40",
   "status": "proved",
   "theorems": [
    "C40_epoch",
    "C40_missing_labels",
    "C40_cost"
   ],
   "note": "SGDTrainer processes rows in order, one update per row, and reports the post-epoch cost"
  },
  {
   "property": "C41",
   "status": "proved",
   "theorems": [
    "C41_average"
   ],
   "note": "Momentum trainer applies an exponential moving average of gradients"
  },
  {
   "property": "C42",
   "status": "proved",
   "theorems": [
    "C42_zero",
    "C42_not_plain"
   ],
   "note": "Zero momentum does not reduce to plain gradient descent"
  },
  {
   "property": "C43",
   "status": "proved",
   "theorems": [
    "C43_shared",
    "C43_disjoint_unaffected",
    "C43_training_moves_original"
   ],
   "note": "Copying a network shares its hidden layers"
  },
  {
   "property": "C44",
   "status": "proved",
   "theorems": [
    "C44_kept",
    "C44_sgd_plain",
    "C44_batch_plain",
    "C44_momentum_plain",
    "C44_sgd_restart",
    "C44_momentum_restart",
    "C44_batch_restart"
   ],
   "note": "Copies of derived trainers restart and enable decay"
  },
  {
   "property": "C45",
   "status": "proved",
   "theorems": [
    "C45_copy",
    "C45_k_copies",
    "C45_network",
    "C45_forward"
   ],
   "note": "Copying an input layer grows it"
  },
  {
   "property": "C46",
   "status": "proved",
   "theorems": [
    "C46_normalisation",
    "C46_same_seed",
    "C46_single_weight"
   ],
   "note": "Weight initialisation normalisation"
  },
  {
   "property": "C47",
   "status": "proved",
   "theorems": [
    "C47_roundtrip",
    "C47_exact",
    "C47_identity",
    "C47_layers",
    "C47_unopenable",
    "C47_unreadable"
   ],
   "note": "save/load round trip"
  },
  {
   "property": "C48",
   "status": "proved",
   "theorems": [
    "C48_short",
    "C48_sticky",
    "C48_crash",
    "C48_crash_all"
   ],
   "note": "load from a truncated or malformed file silently zeroes the remaining weights"
  },
  {
   "property": "C49",
   "status": "proved",
   "theorems": [
    "C49_new",
    "C49_forward"
   ],
   "note": "Convolution forward pass (stride 1)"
  },
  {
   "property": "C50",
   "status": "proved",
   "theorems": [
    "C50_rows",
    "C50_stride",
    "C50_negative_stride"
   ],
   "note": "Convolution ignores batch rows and mishandles strides"
  },
  {
   "property": "C51",
   "status": "proved",
   "theorems": [
    "C51_copy",
    "C51_assign",
    "C51_self",
    "C51_default",
    "C51_assign_rest",
    "C51_maxpool_copy",
    "C51_maxpool_assign"
   ],
   "note": "Copying a convolution layer changes its stride and loses its weights and sizes"
  },
  {
   "property": "C52",
   "status": "proved",
   "theorems": [
    "C52_max",
    "C52_mean",
    "C52_single"
   ],
   "note": "Pooling forward passes"
  },
  {
   "property": "C53",
   "status": "proved",
   "theorems": [
    "C53_sticky",
    "C53_uninitialised",
    "C53_objects",
    "C53_range"
   ],
   "note": "NormLayer scales by a range that sticks between passes"
  },
  {
   "property": "C54",
   "status": "proved",
   "theorems": [
    "C54_distribution",
    "C54_order",
    "C54_shift",
    "C54_backprop",
    "C54_not_jacobian",
    "C54_objects"
   ],
   "note": "SoftmaxLayer forward yields a distribution; backward is not its derivative"
  },
  {
   "property": "C55",
   "status": "proved",
   "theorems": [
    "C55_setlrate",
    "C55_setlrate_forward",
    "C55_randomize_hidden",
    "C55_randomize_output",
    "C55_output_accessors",
    "C55_hidden_accessors"
   ],
   "note": "setlrate, randomize and accessors affect only what they name"
  },
  {
   "property": "C56",
   "status": "proved",
   "theorems": [
    "C56_batch",
    "C56_momentum",
    "C56_trainer",
    "C56_sgd"
   ],
   "note": "Training on well-shaped data never fails"
  },
  {
   "property": "C57",
   "status": "proved",
   "theorems": [
    "C57_issame",
    "C57_check",
    "C57_no_hidden",
    "C57_returns",
    "C57_caller",
    "C57_repeat",
    "C57_self",
    "C57_one_good_entry",
    "C57_linear"
   ],
   "note": "GradientChecker accepts only gradients that are wrong everywhere, and leaves the network as it was"
  },
  {
   "property": "C58",
   "status": "proved",
   "theorems": [
    "C58_trainer",
    "C58_momentum"
   ],
   "note": "Trainer and MomentumTrainer report the cost from before the update"
  },
  {
   "property": "C61",
   "status": "proved",
   "theorems": [
    "C61_trainer",
    "C61_sgd",
    "C61_batch",
    "C61_momentum"
   ],
   "note": "Asking for the cost does not change training"
  },
  {
   "property": "C62",
   "status": "proved",
   "theorems": [
    "C62_mean",
    "C62_minibatch",
    "C62_order",
    "C62_pick_self"
   ],
   "note": "The batch gradient is the mean of the per-sample gradients; sample order does not matter"
  },
  {
   "property": "C66",
   "status": "proved",
   "theorems": [
    "C66_trainer",
    "C66_sgd",
    "C66_batch",
    "C66_momentum",
    "C66_same_function"
   ],
   "note": "Predictions and forward passes between training calls do not influence training"
  },
  {
   "property": "C59",
   "status": "proved",
   "theorems": [
    "C59_throws",
    "C59_needs_forward",
    "C59_delta_use",
    "C59_identity",
    "C59_backprop"
   ],
   "note": "Convolution backward pass: what it computes and when it throws"
  },
  {
   "property": "C60",
   "status": "proved",
   "theorems": [
    "C60_max_size",
    "C60_max_dense",
    "C60_mean_dense"
   ],
   "note": "Pooling backward passes cannot train what is in front of them"
  },
  {
   "property": "C67",
   "status": "proved",
   "theorems": [
    "C67_addcol",
    "C67_addrow",
    "C67_repeat",
    "C67_access",
    "C67_blocks",
    "C67_flips",
    "C67_addcols",
    "C67_addrows",
    "C67_sums",
    "C67_elementwise",
    "C67_extrema"
   ],
   "note": "Matrix helpers"
  },
  {
   "property": "C63",
   "status": "proved",
   "theorems": [
    "C63_descent",
    "C63_history",
    "C63_contraction",
    "C63_converges",
    "C63_single",
    "C63_constructed"
   ],
   "note": "Training a network without hidden layers converges to the least-squares optimum"
  },
  {
   "property": "C64",
   "status": "proved",
   "theorems": [
    "C64_batch",
    "C64_sgd"
   ],
   "note": "When the trainers coincide"
  },
  {
   "property": "C65",
   "status": "proved",
   "theorems": [
    "C65_value",
    "C65_network",
    "C65_constructed",
    "C65_getoutput_throws",
    "C65_getoutput_after_backprop"
   ],
   "note": "The cost an output layer reports"
  },
  {
   "property": "C68",
   "status": "proved",
   "theorems": [
    "C68_safe",
    "C68_counters",
    "C68_unbound",
    "C68_isolation"
   ],
   "note": "Several trainers and networks in one program"
  },
  {
   "property": "C69",
   "status": "proved",
   "theorems": [
    "C69_feed",
    "C69_reassigned",
    "C69_success",
    "C69_layers"
   ],
   "note": "A MomentumTrainer is tied to the layer sizes its network had at construction"
  },
  {
   "property": "C70",
   "status": "proved",
   "theorems": [
    "C70_any_order",
    "C70_network",
    "C70_predict",
    "C70_activations",
    "C70_binary64"
   ],
   "note": "Rounding errors do not change the answer of a clear prediction"
  },
  {
   "property": "C71",
   "status": "proved",
   "theorems": [
    "C71_refines",
    "C71_passes",
    "C71_trainer",
    "C71_sgd",
    "C71_batch",
    "C71_momentum",
    "C71_future",
    "C71_retry",
    "C71_layer"
   ],
   "note": "What a training call that ends in an exception has already done"
  },
  {
   "property": "C72",
   "status": "proved",
   "theorems": [
    "C72_forward",
    "C72_trainer",
    "C72_momentum",
    "C72_sgd",
    "C72_sgd_surplus",
    "C72_sgd_short",
    "C72_batch",
    "C72_batch_pairing"
   ],
   "note": "Exactly which data the networks and the trainers accept"
  },
  {
   "property": "C73",
   "status": "proved",
   "theorems": [
    "C73_getters",
    "C73_update",
    "C73_backward",
    "C73_new",
    "C73_update_first",
    "C73_unusable",
    "C73_param",
    "C73_input",
    "C73_output_copies",
    "C73_argmax"
   ],
   "note": "A layer object used on its own behaves as its getters say"
  },
  {
   "property": "C74",
   "status": "proved",
   "theorems": [
    "C74_programs",
    "C74_update",
    "C74_pool_backprop",
    "C74_meanpool"
   ],
   "note": "Every kind of layer used on its own: what each call can change"
  },
  {
   "property": "C75",
   "status": "proved",
   "theorems": [
    "C75_values",
    "C75_frame"
   ],
   "note": "Tensor variables behave like independent immutable values"
  },
  {
   "property": "C76",
   "status": "proved",
   "theorems": [
    "C76_twins",
    "C76_outputs"
   ],
   "note": "Equal hidden units stay equal forever"
  },
  {
   "property": "C77",
   "status": "proved",
   "theorems": [
    "C77_dead",
    "C77_relu",
    "C77_regularised",
    "C77_shrinks",
    "C77_revived"
   ],
   "note": "A unit whose activation is flat on the training data never learns"
  },
  {
   "property": "C78",
   "status": "proved",
   "theorems": [
    "C78_fixed",
    "C78_kl"
   ],
   "note": "A perfect fit is a fixed point of training"
  },
  {
   "property": "C79",
   "status": "proved",
   "theorems": [
    "C79_weight",
    "C79_survives",
    "C79_checkpoint",
    "C79_overflow"
   ],
   "note": "What a saved network file loses, and that it loses it only once"
  },
  {
   "property": "C80",
   "status": "proved",
   "theorems": [
    "C80_same_file",
    "C80_trainer",
    "C80_sgd",
    "C80_batch",
    "C80_same_trainer",
    "C80_not_saved",
    "C80_sixdigits",
    "C80_second"
   ],
   "note": "Going on with training from a saved file"
  },
  {
   "property": "C81",
   "status": "proved",
   "theorems": [
    "C81_forward",
    "C81_predict",
    "C81_closed",
    "C81_checkpoint"
   ],
   "note": "A reloaded network gives nearly the same answers"
  },
  {
   "property": "C82",
   "status": "proved",
   "theorems": [
    "C82_conserved",
    "C82_one_call",
    "C82_drift"
   ],
   "note": "What training a softmax output conserves, and how unnormalised labels make it run away"
  },
  {
   "property": "C83",
   "status": "proved",
   "theorems": [
    "C83_training",
    "C83_answers",
    "C83_hidden_units",
    "C83_odd"
   ],
   "note": "Numbering and sign of units do not matter"
  },
  {
   "property": "C84",
   "status": "proved",
   "theorems": [
    "C84_training",
    "C84_answers"
   ],
   "note": "Only the relative frequency of samples matters to whole-batch training"
  },
  {
   "property": "C85",
   "status": "proved",
   "theorems": [
    "C85_built",
    "C85_spiral",
    "C85_xor",
    "C85_bad_label"
   ],
   "note": "The example programs run to the end"
  },
  {
   "property": "C86",
   "status": "proved",
   "theorems": [
    "C86_runs",
    "C86_monotone",
    "C86_rate",
    "C86_limit",
    "C86_optimum",
    "C86_constructed"
   ],
   "note": "Training one layer reaches the best possible cost"
  },
  {
   "property": "C87",
   "status": "proved",
   "theorems": [
    "C87_softmax",
    "C87_logistic"
   ],
   "note": "Data that one layer can separate are learned completely"
  },
  {
   "property": "C88",
   "status": "proved",
   "theorems": [
    "C88_regret",
    "C88_before",
    "C88_sgd",
    "C88_mistakes"
   ],
   "note": "Online learning: training on a changing stream competes with every fixed network"
  },
  {
   "property": "C89",
   "status": "proved",
   "theorems": [
    "C89_conserved",
    "C89_unused",
    "C89_duplicate",
    "C89_onehot",
    "C89_shrink"
   ],
   "note": "Training never changes the first layer in directions the samples do not have"
  },
  {
   "property": "C90",
   "status": "proved",
   "theorems": [
    "C90_meaning",
    "C90_equation",
    "C90_laws"
   ],
   "note": "Matrix algebra is valid for tensor programs"
  },
  {
   "property": "C91",
   "status": "proved",
   "theorems": [
    "C91_lipschitz",
    "C91_predict",
    "C91_constants",
    "C91_example"
   ],
   "note": "Similar samples get similar answers"
  },
  {
   "property": "C92",
   "status": "proved",
   "theorems": [
    "C92_monotone",
    "C92_affine",
    "C92_collapse",
    "C92_rescale",
    "C92_scalable",
    "C92_convex",
    "C92_xor",
    "C92_example"
   ],
   "note": "Which functions a network can compute"
  },
  {
   "property": "C93",
   "status": "proved",
   "theorems": [
    "C93_fit",
    "C93_only",
    "C93_classes",
    "C93_example"
   ],
   "note": "One hidden layer of q relu units can fit any q + 1 samples"
  },
  {
   "property": "C94",
   "status": "proved",
   "theorems": [
    "C94_runs",
    "C94_below",
    "C94_rate",
    "C94_limit",
    "C94_example"
   ],
   "note": "MomentumTrainer on one layer converges"
  },
  {
   "property": "C95",
   "status": "proved",
   "theorems": [
    "C95_sticky",
    "C95_spread",
    "C95_all",
    "C95_blind",
    "C95_costs",
    "C95_ieee",
    "C95_example"
   ],
   "note": "A NaN weight is permanent, spreads, and blinds the network"
  },
  {
   "property": "C96",
   "status": "proved",
   "theorems": [
    "C96_bounded",
    "C96_single",
    "C96_momentum",
    "C96_activations"
   ],
   "note": "Regularised training cannot diverge"
  },
  {
   "property": "C97",
   "status": "proved",
   "theorems": [
    "C97_default",
    "C97_decay",
    "C97_assign",
    "C97_assign_other",
    "C97_objects",
    "C97_empty",
    "C97_copy"
   ],
   "note": "Constructing and assigning trainers"
  },
  {
   "property": "C98",
   "status": "proved",
   "theorems": [
    "C98_direction",
    "C98_objective",
    "C98_diverges",
    "C98_border",
    "C98_one_sample"
   ],
   "note": "Which learning rates are too large"
  },
  {
   "property": "C99",
   "status": "proved",
   "theorems": [
    "C99_surplus",
    "C99_short",
    "C99_oversized_filter",
    "C99_unfitting_filter"
   ],
   "note": "Convolution and pooling layers on inputs or filters of the wrong size"
  },
  {
   "property": "C100",
   "status": "proved",
   "theorems": [
    "C100_converges",
    "C100_step"
   ],
   "note": "A small enough rate makes training of a deep regularised network converge to a stationary point"
  },
  {
   "property": "C101",
   "status": "proved",
   "theorems": [
    "C101_converges"
   ],
   "note": "A small enough rate makes MomentumTrainer converge to a stationary point of a deep regularised network"
  },
  {
   "property": "C102",
   "status": "proved",
   "theorems": [
    "C102_pass",
    "C102_sgd",
    "C102_batch"
   ],
   "note": "A small enough rate makes SGDTrainer and BatchTrainer reach any wanted gradient on a deep regularised network"
  },
  {
   "property": "C103",
   "status": "proved",
   "theorems": [
    "C103_converges"
   ],
   "note": "MomentumTrainer with momentum 0 on a deep regularised network: the output layer settles, the hidden layers only slowly"
  },
  {
   "property": "C104",
   "status": "proved",
   "theorems": [
    "C104_forward",
    "C104_forward_fails",
    "C104_backprop",
    "C104_backprop_fails",
    "C104_update",
    "C104_update_with"
   ],
   "note": "A network of layers of any classes runs the layers' own passes in order"
  },
  {
   "property": "C105",
   "status": "proved",
   "theorems": [
    "C105_training",
    "C105_predict",
    "C105_best",
    "C105_minibatch",
    "C105_online"
   ],
   "note": "Layers without weights in front of a network are a fixed preprocessing"
  }
 ]
}