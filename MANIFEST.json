{
 "claims": [
  {
   "property": "C01",
   "status": "proved",
   "theorems": [
    "C01_programs_run",
    "C01_names_unique",
    "C01_names_total",
    "C01_unshared_base_name",
    "C01_shared_base_name_numbered"
   ],
   "note": "All creation/wiring programs; names total, unique per connected group, base name kept when unshared, numbering in creation order."
  },
  {
   "property": "C02",
   "status": "proved",
   "theorems": [
    "C02_collect_connected",
    "C02_generate_architecture_lossless"
   ],
   "note": "collect_connected_layers = connected component; generate_architecture lossless for every iteration order. Layer kwargs are not represented."
  },
  {
   "property": "C03",
   "status": "proved",
   "theorems": [
    "C03_acyclic_ordered",
    "C03_cyclic_rejected"
   ],
   "note": "Topological order for every acyclic architecture; every cyclic one rejected."
  },
  {
   "property": "C04",
   "status": "proved",
   "theorems": [
    "C04_order_canonical",
    "C04_connections_canonical",
    "C04_order_by_height_and_name"
   ],
   "note": "Order and connection list are independent of dictionary order; order is by height then name."
  },
  {
   "property": "C05",
   "status": "proved",
   "theorems": [
    "C05_input_first",
    "C05_dangling_layer_first_refuted"
   ],
   "note": "Input first for every accepted architecture whose other layers all have incoming connections; the counterexample for a dangling layer is C05_dangling_layer_first_refuted."
  },
  {
   "property": "C06",
   "status": "partial",
   "theorems": [
    "C06_validation_exact",
    "C06_valid_names",
    "C06_exactly_one_input_refuted",
    "C06_names_are_identifiers_refuted",
    "C06_missing_connections_keyerror"
   ],
   "note": "Exact characterisation of what validation accepts is proved. \"Exactly one Input layer\" and \"names are identifiers\" are false of the code (C06_..._refuted)."
  },
  {
   "property": "C07",
   "status": "proved",
   "theorems": [
    "C07_wildcards",
    "C07_wildcards_any_key",
    "C07_mapping",
    "C07_unmatched_is_error"
   ],
   "note": "Exact for all references and keys (including the newline quirk of $)."
  },
  {
   "property": "C08",
   "status": "partial",
   "theorems": [
    "C08_resolution",
    "C08_resolution_total",
    "C08_specific_wins",
    "C08_prune",
    "C08_default_only_if_unmatched_refuted",
    "C08_dict_default_refuted"
   ],
   "note": "Exact characterisation of the resolved sets for every nesting depth and totality are proved. \"The default applies iff no reference matched\" is false for overlapping patterns (refuted), and a dictionary as default raises TypeError (refuted)."
  },
  {
   "property": "C09",
   "status": "proved",
   "theorems": [
    "C09_closure",
    "C09_partition",
    "C09_total",
    "C09_merge"
   ],
   "note": ""
  },
  {
   "property": "C10",
   "status": "proved",
   "theorems": [
    "C10_sources",
    "C10_disjoint_cover",
    "C10_sinks",
    "C10_attributes"
   ],
   "note": ""
  },
  {
   "property": "C11",
   "status": "proved",
   "theorems": [
    "C11_failure",
    "C11_success",
    "C11_forced_orders"
   ],
   "note": ""
  },
  {
   "property": "C12",
   "status": "proved",
   "theorems": [
    "C12_same_offsets",
    "C12_concatenation",
    "C12_deltas"
   ],
   "note": "Layout level: slices of parameters/gradients (and outputs/output_deltas, inputs/input_deltas) agree, parameters are a partition of the cells of the flat parameters. Hypothesis wf_layers describes the layers built from an architecture; examples C12_example_wf/C12_example_layout show it is met."
  },
  {
   "property": "C13",
   "status": "partial",
   "theorems": [
    "C13_flattened",
    "C13_one_dimensional",
    "C13_multi_dimensional_refuted"
   ],
   "note": "Proved for the flattened features of every input and, as stated, for one-dimensional features. With more feature dimensions the sources are concatenated as flattened blocks, so the claim about the last dimension is false (C13_multi_dimensional_refuted)."
  },
  {
   "property": "C14",
   "status": "proved",
   "theorems": [
    "C14_parameters_survive",
    "C14_memory_large_enough",
    "C14_parameter_view",
    "C14_other_buffers"
   ],
   "note": "Histories of resizes, handler changes, parameter writes and writes to other memory. Hypothesis of C14_parameter_view/C14_other_buffers: parameters have buffer type 0, as all layers declare."
  },
  {
   "property": "C15",
   "status": "proved",
   "theorems": [
    "C15_views_exist",
    "C15_disjoint",
    "C15_inside",
    "C15_write"
   ],
   "note": ""
  },
  {
   "property": "C16",
   "status": "partial",
   "theorems": [
    "C16_context_rows",
    "C16_network",
    "C16_pieces",
    "C16_pointwise",
    "C16_recurrent",
    "C16_recurrent_layer",
    "C16_lstm",
    "C16_lstm_layer",
    "C16_clockwork_aligned_partial",
    "C16_clockwork_refuted"
   ],
   "note": "proved for networks of step-wise, Recurrent and LSTM layers in any number of pieces, and for the copying of contexts in memory. Refuted for Clockwork, whose clock restarts with every pass (true when the first part is a multiple of all timings). Inputs that share a hub with recurrent outputs lose their last step when no context is given (see C17)."
  },
  {
   "property": "C17",
   "status": "partial",
   "theorems": [
    "C17_no_context_partial",
    "C17_with_context",
    "C17_clear_context_refuted"
   ],
   "note": "With a context everything provided is unchanged; without context the data outside the last context rows of a shared hub are unchanged (all data if no recurrent buffer shares the hub). False when a recurrent output and the input share a consumer (C17_clear_context_refuted)."
  },
  {
   "property": "C18",
   "status": "partial",
   "theorems": [
    "C18_update_hooks",
    "C18_epoch_hooks_partial",
    "C18_only_these",
    "C18_numbering",
    "C18_position",
    "C18_stop_before_training_refuted"
   ],
   "note": "Update hooks fully; epoch hooks as claimed unless a hook of the update timescale requests a stop before training, when the epoch hooks are not called at all (C18_stop_before_training_refuted). Hypothesis intervals >= 1."
  },
  {
   "property": "C19",
   "status": "proved",
   "theorems": [
    "C19_stop_after_epoch",
    "C19_first_multiple"
   ],
   "note": ""
  },
  {
   "property": "C20",
   "status": "proved",
   "theorems": [
    "C20_remaining_hooks",
    "C20_stop",
    "C20_epoch_completed",
    "C20_logs"
   ],
   "note": ""
  },
  {
   "property": "C21",
   "status": "partial",
   "theorems": [
    "C21_hook_order",
    "C21_order_of_addition",
    "C21_shared_hook_refuted"
   ],
   "note": "Proved for hooks that are in one trainer only; adding a hook object already used in another trainer re-ranks it there (C21_shared_hook_refuted)."
  },
  {
   "property": "C22",
   "status": "proved",
   "theorems": [
    "C22_early_stopper",
    "C22_missing_log",
    "C22_stops_after_patience"
   ],
   "note": "Floats are NaN, +-inf or rationals; a NaN counts as best (np.argmin/argmax) as in the code."
  },
  {
   "property": "C23",
   "status": "proved",
   "theorems": [
    "C23_save_best"
   ],
   "note": "If no value is ever better than the initial infinity nothing is stored."
  },
  {
   "property": "C24",
   "status": "proved",
   "theorems": [
    "C24_linear",
    "C24_linear_monotone",
    "C24_exponential",
    "C24_exponential_step",
    "C24_multi_step",
    "C24_multi_step_interval",
    "C24_decrease_after_epoch"
   ],
   "note": "num_changes and interval at least 1 (0 raises ZeroDivisionError); MultiStep for non-decreasing, non-negative steps; bounds of Exponential ordered. DecreaseAfterEpoch included."
  },
  {
   "property": "C25",
   "status": "proved",
   "theorems": [
    "C25_sgd",
    "C25_momentum",
    "C25_momentum_geometric",
    "C25_no_momentum",
    "C25_nesterov",
    "C25_start"
   ],
   "note": "Rates may change from update to update; the gradient is an arbitrary function of update number and parameters."
  },
  {
   "property": "C26",
   "status": "proved",
   "theorems": [
    "C26_partition"
   ],
   "note": ""
  },
  {
   "property": "C27",
   "status": "proved",
   "theorems": [
    "C27_mask",
    "C27_lengths"
   ],
   "note": ""
  },
  {
   "property": "C28",
   "status": "partial",
   "theorems": [
    "C28_minibatches_partial",
    "C28_undivided_partial",
    "C28_inplace_partial",
    "C28_undivided_refuted",
    "C28_flip_refuted"
   ],
   "note": "True for Minibatches when whatever overwrites elements works on a copy made by an earlier wrapper, and for a bare Undivided. Refuted for wrapped Undivided (padded twice) and for Flip directly over Minibatches (data overwritten); C28_inplace_partial says exactly what such a wrapper leaves behind."
  },
  {
   "property": "C29",
   "status": "partial",
   "theorems": [
    "C29_one_hot",
    "C29_multi_hot",
    "C29_pad_partial",
    "C29_pad_zero_refuted",
    "C29_crop",
    "C29_flip"
   ],
   "note": "Pad with size 0 is refuted (slice 0:-0 is empty); everything else proved."
  },
  {
   "property": "C30",
   "status": "partial",
   "theorems": [
    "C30_scores",
    "C30_losses",
    "C30_constant_losses",
    "C30_evaluate",
    "C30_same_name_refuted",
    "C30_accuracy",
    "C30_hamming"
   ],
   "note": "Proved for distinct scorer/loss names; networks whose values at a time step do not depend on the batch (C70 proves this of created networks). Scorers sharing a name are merged (refuted). Division by a zero total weight (NaN) is outside of the model."
  },
  {
   "property": "C31",
   "status": "partial",
   "theorems": [
    "C31_extract_partial",
    "C31_duplicate_refuted",
    "C31_lengths_refuted"
   ],
   "note": "Proved for distinct buffer names and batches of equal length in time. Refuted for a name requested twice and for batches cut to different lengths."
  },
  {
   "property": "C32",
   "status": "proved",
   "theorems": [
    "C32_shuffle",
    "C32_split"
   ],
   "note": "split with exact rational arithmetic, non-negative ratios with positive sum; all arrays with the same number of sequences."
  },
  {
   "property": "C33",
   "status": "partial",
   "theorems": [
    "C33_seeded_partial",
    "C33_sparse_refuted"
   ],
   "note": "Proved for initializers whose sparse parts contain a deterministic sub-initializer, any object sharing, histories and dictionary orders. Refuted for sparse initializers with a random sub-initializer."
  },
  {
   "property": "C34",
   "status": "partial",
   "theorems": [
    "C34_sparse",
    "C34_units_refuted"
   ],
   "note": "Exactly k entries per column (row) proved for any random choice. Refuted: the columns of the weights are not the units, so the documented restriction per unit does not hold."
  },
  {
   "property": "C35",
   "status": "partial",
   "theorems": [
    "C35_restored",
    "C35_recreatable",
    "C35_same_description",
    "C35_library",
    "C35_uniform_refuted",
    "C35_array_refuted",
    "C35_type_key_refuted"
   ],
   "note": "Proved for every class table and object tree (classes without own __describe__, no key \"@type\"), and that all library classes except Uniform meet the conditions. Refuted for Uniform (no random state), nested array initializers (become lists) and plain data with a key \"@type\"."
  },
  {
   "property": "C36",
   "status": "partial",
   "theorems": [
    "C36_load_partial",
    "C36_modifiers_work",
    "C36_uninitialised_refuted",
    "C36_uniform_refuted",
    "C36_nested_array_refuted",
    "C36_shared_refuted",
    "C36_modifier_state_refuted"
   ],
   "note": "False as stated. Proved for all initialised networks whose initializers are numbers, lists, arrays or objects made of simple parts, each used at one place, with any installed modifiers: saving and loading succeed with the same architecture, parameters, output name and modifiers. Refuted for networks never initialised, for Uniform, for arrays nested in another initializer, for an initializer object shared by two matching patterns, and for the state of MaskValues and FreezeValues. Not modelled: HDF5 and JSON encoding, the handler entry, building layers from the architecture (a parameter of the model)."
  },
  {
   "property": "C37",
   "status": "proved",
   "theorems": [
    "C37_clip",
    "C37_clip_swapped",
    "C37_constrain",
    "C37_constrain_bias",
    "C37_mask",
    "C37_freeze",
    "C37_freeze_all",
    "C37_l1",
    "C37_l1_subgradient",
    "C37_l2"
   ],
   "note": "over exact reals; clip bounds in order, norms at most limit * largest float"
  },
  {
   "property": "C38",
   "status": "proved",
   "theorems": [
    "C38_derivative",
    "C38_kink",
    "C38_sigmoid",
    "C38_inplace"
   ],
   "note": "over exact reals; the kink of rel is shown not to be a point of differentiability"
  },
  {
   "property": "C39",
   "status": "proved",
   "theorems": [
    "C39_softmax"
   ],
   "note": "over exact reals"
  },
  {
   "property": "C40",
   "status": "partial",
   "theorems": [
    "C40_softmax",
    "C40_sigmoid",
    "C40_binomial",
    "C40_clipping_refuted",
    "C40_binomial_shape",
    "C40_binomial_shape_refuted"
   ],
   "note": "exact wherever the clipping to [1e-6, 1] does not act; refuted where it acts (constant loss, non-zero deltas), and BinomialCrossEntropy's backward pass fails an assertion for inputs with more than one feature dimension"
  },
  {
   "property": "C41",
   "status": "partial",
   "theorems": [
    "C41_fully_connected",
    "C41_fully_connected_adds_refuted",
    "C41_highway",
    "C41_merge",
    "C41_merge_places",
    "C41_mask",
    "C41_noop",
    "C41_elementwise",
    "C41_squared_difference",
    "C41_squared_error",
    "C41_l1_decay",
    "C41_l2_decay",
    "C41_loss"
   ],
   "note": "derivatives exact for all listed layers over exact reals; FullyConnected overwrites its gradients instead of adding (refuted), harmless after clear_backward_buffers"
  },
  {
   "property": "C42",
   "status": "proved",
   "theorems": [
    "C42_exact"
   ],
   "note": "over exact reals; for Rel where no pre-activation is 0"
  },
  {
   "property": "C43",
   "status": "partial",
   "theorems": [
    "C43_exact",
    "C43_context_partial",
    "C43_context_refuted"
   ],
   "note": "exact without context for inputs and all parameters; with a context exact for all but recurrent and input/forget peephole weights, whose gradients are refuted (dy[-1], dCa[-1] used instead of y[-1], Ca[-1])"
  },
  {
   "property": "C44",
   "status": "proved",
   "theorems": [
    "C44_ticks",
    "C44_forward",
    "C44_exact"
   ],
   "note": "over exact reals; for Rel where no pre-activation is 0"
  },
  {
   "property": "C45",
   "status": "proved",
   "theorems": [
    "C45_size",
    "C45_forward",
    "C45_gradient",
    "C45_other_images"
   ],
   "note": "im2col and col2im as written, with their running indices, for all sizes; forward = weighted sum of the padded window plus bias, through the activation function; backward = derivative along all curves of inputs, weights and biases (for rel off the kink). Strides must be positive where sizes are concerned (0 raises ZeroDivisionError)."
  },
  {
   "property": "C46",
   "status": "partial",
   "theorems": [
    "C46_max_forward",
    "C46_max_empty",
    "C46_windows",
    "C46_lowest_refuted",
    "C46_max_backward",
    "C46_max_gradient",
    "C46_avg_forward",
    "C46_avg_empty",
    "C46_avg_gradient",
    "C46_float32_refuted"
   ],
   "note": "Maximum, routing to the first maximum and derivative (strict maximum), mean and its derivative for all sizes. False for values not above -FLT_MAX/-DBL_MAX (output 0) and in float32 for images with more than 2^24 values, where the stored index is rounded (both refuted)."
  },
  {
   "property": "C47",
   "status": "partial",
   "theorems": [
    "C47_evaluation",
    "C47_scaled",
    "C47_refuted"
   ],
   "note": "refuted: the deltas lack the factor 1/(1-p); proved exact up to that factor, identity outside training"
  },
  {
   "property": "C48",
   "status": "proved",
   "theorems": [
    "C48_normalised",
    "C48_running",
    "C48_ema",
    "C48_evaluation",
    "C48_gradient"
   ],
   "note": "over exact reals"
  },
  {
   "property": "C49",
   "status": "proved",
   "theorems": [
    "C49_backprop",
    "C49_layers",
    "C49_network",
    "C49_gradient",
    "C49_input_delta"
   ],
   "note": "over exact reals, for every network of layers that back-propagate correctly on cleared buffers, and for every network of the modelled layers (FullyConnected, Elementwise, Highway, Merge, Mask, SquaredDifference, SquaredError, SoftmaxCE, SigmoidCE, BatchNorm, Recurrent, Clockwork, Lstm and ClockworkLstm without context, NoOp, L1Decay, L2Decay, BinomialCrossEntropy, Convolution2D, Pooling2D, Loss; Dropout only with probability 0, see C47) where no kink of rel, abs or max and no clipping is hit"
  },
  {
   "property": "C50",
   "status": "proved",
   "theorems": [
    "C50_fresh",
    "C50_repeat",
    "C50_cleared",
    "C50_layers",
    "C50_network"
   ],
   "note": "after a forward pass everything depends on parameters and external inputs only; a repeated backward pass gives the same result; clear_backward_buffers clears exactly the backward-only buffers in memory"
  },
  {
   "property": "C51",
   "status": "proved",
   "theorems": [
    "C51_isolated",
    "C51_values",
    "C51_reset",
    "C51_pickle",
    "C51_derived",
    "C51_created"
   ],
   "note": ""
  },
  {
   "property": "C52",
   "status": "partial",
   "theorems": [
    "C52_paths_like_directories_partial",
    "C52_normalisation_idempotent",
    "C52_dotdot_inside_argument_refuted",
    "C52_final_dotdot_refuted"
   ],
   "note": "Proved for arguments made of leading \"..\" and components; \"..\" elsewhere is not cancelled (refuted with witnesses)."
  },
  {
   "property": "C53",
   "status": "proved",
   "theorems": [
    "C53_nested_indices",
    "C53_index_of_element",
    "C53_flatten_keys",
    "C53_get_by_path"
   ],
   "note": "flatten / convert_to_nested_indices / flatten_keys / get_by_path."
  },
  {
   "property": "C54",
   "status": "partial",
   "theorems": [
    "C54_structure_validation",
    "C54_template_validation",
    "C54_template_matching",
    "C54_unscaled_wildcard_matches_everything_refuted",
    "C54_combination",
    "C54_combined_size"
   ],
   "note": "Refuted: a template without '...T,B' scaling that uses an unscaled '...' accepts buffers of every scaling type (C54_unscaled_wildcard_matches_everything_refuted). Validation of structures and templates, template matching and combination are characterised exactly."
  },
  {
   "property": "C55",
   "status": "proved",
   "theorems": [
    "C55_losses"
   ],
   "note": "Hypotheses: distinct names, none called total_loss (asserted by the code), batch size not 0."
  },
  {
   "property": "C56",
   "status": "partial",
   "theorems": [
    "C56_threshold",
    "C56_nan_first_refuted",
    "C56_missing_log",
    "C56_stop_on_nan"
   ],
   "note": "StopOnNan as claimed. StopAfterThresholdReached as claimed unless the first logged value is NaN, which hides all later values (C56_nan_first_refuted)."
  },
  {
   "property": "C57",
   "status": "partial",
   "theorems": [
    "C57_gradients",
    "C57_parameters",
    "C57_in_outs",
    "C57_deltas_refuted",
    "C57_deltas_partial"
   ],
   "note": "Parameters, gradients, inputs/outputs: all statistics of all arrays with entries. MonitorLayerDeltas raises KeyError for every layer with an input (C57_deltas_refuted)."
  },
  {
   "property": "C58",
   "status": "partial",
   "theorems": [
    "C58_clock",
    "C58_exact",
    "C58_context_partial",
    "C58_context_refuted",
    "C58_zero_refuted"
   ],
   "note": "Clock: proved. Gradients exact for all timings but 0 when no context is given; with a context exact for all but recurrent and input/forget peephole weights, whose gradients are refuted (as C43). Refuted for timing 0, where the forward pass computes step 0 but the backward pass yields zero gradients."
  },
  {
   "property": "C59",
   "status": "proved",
   "theorems": [
    "C59_blocks"
   ],
   "note": ""
  },
  {
   "property": "C60",
   "status": "partial",
   "theorems": [
    "C60_im2col",
    "C60_col2im",
    "C60_conv_forward",
    "C60_conv_backward",
    "C60_maxpool_forward",
    "C60_avgpool_forward",
    "C60_avgpool_backward",
    "C60_maxpool_backward",
    "C60_maxpool_partial",
    "C60_maxpool_float32_refuted",
    "C60_elementwise",
    "C60_broadcast",
    "C60_binarize_partial",
    "C60_binarize_refuted",
    "C60_index",
    "C60_modulo_partial",
    "C60_modulo_refuted",
    "C60_merge_partial",
    "C60_merge_refuted",
    "C60_split_partial",
    "C60_split_refuted",
    "C60_softmax",
    "C60_softmax_races",
    "C60_softmax_max"
   ],
   "note": "Elementwise kernels, broadcast, indexing, softmax (barriers, all interleavings), im2col/col2im, convolution and pooling forward and backward: the same results as the CPU handler (over the reals) in every interleaving of the threads, and no races. False for labels that are negative or not integers in binarize_v, for periods or operands that are not non-negative integers in modulo_tt, for merge_tt and split_add_tt with more than 98304 rows (the rest is left untouched), and for max pooling of images with more than 2^24 values (another channel gets the delta); all refuted. Not modelled: pycuda ElementwiseKernel, skcuda/cuBLAS, random numbers, C int overflow, sum_t."
  },
  {
   "property": "C61",
   "status": "partial",
   "theorems": [
    "C61_passes_fit",
    "C61_usable_needed",
    "C61_unknown_activation_refuted",
    "C61_drop_everything_refuted",
    "C61_binomial_refuted",
    "C61_big_kernel_refuted"
   ],
   "note": "False as stated: construction accepts unknown activation names, drop probability 1, BinomialCrossEntropy inputs with several feature dimensions, and kernels larger than the image (all refuted). Proved for all 24 layer classes, all shapes with positive dimensions and all data sizes when these conditions hold, and that each condition is needed. The assertions on array values (NaN checks, class labels) are not part of it."
  },
  {
   "property": "C62",
   "status": "proved",
   "theorems": [
    "C62_structures_valid",
    "C62_inputs",
    "C62_connections",
    "C62_order_irrelevant"
   ],
   "note": "For architectures whose Input layers name their outputs with non-empty names without a dot or @."
  },
  {
   "property": "C63",
   "status": "proved",
   "theorems": [
    "C63_views",
    "C63_disjoint",
    "C63_inputs",
    "C63_parameters"
   ],
   "note": "Under the assumptions of C62 on names; the layout model does not cover layers named parameters or gradients (their entries would replace those of the network)."
  },
  {
   "property": "C64",
   "status": "partial",
   "theorems": [
    "C64_flatten_time",
    "C64_flatten_time_and_features",
    "C64_flatten_all_but_last",
    "C64_memory",
    "C64_batch_norm_refuted",
    "C64_softmax_refuted"
   ],
   "note": "False as stated: flatten_all_but_last (BatchNorm, SoftmaxCE, Mask; the same reshape is in merge_tt and split_add_tt) gives a copy when the buffer has several feature dimensions and shares its hub, and what is written is lost (refuted for BatchNorm outputs and SoftmaxCE input deltas). Proved: exactly when it is a view; flatten_time and flatten_time_and_features always give views; reads are always right."
  },
  {
   "property": "C65",
   "status": "partial",
   "theorems": [
    "C65_views",
    "C65_network",
    "C65_adjust_refuted",
    "C65_items_refuted",
    "C65_parameters_refuted"
   ],
   "note": "False for some names: a layer called adjust makes the first resize raise a TypeError, one called items breaks net.buffer.items(), one called parameters or gradients takes the place of the array of all parameters or gradients. Proved for all trees whose names are none of eight reserved ones, and for all networks whose layers and buffers are not called so; empty views are replaced by new ones at each resize."
  },
  {
   "property": "C66",
   "status": "proved",
   "theorems": [
    "C66_gradients",
    "C66_input_deltas",
    "C66_forward"
   ],
   "note": "Over real numbers. The layer passes are the ones of C49, reading and writing the cells of their buffers; internals, predictions, moving averages of BatchNorm and context values are not stored in this memory."
  },
  {
   "property": "C67",
   "status": "proved",
   "theorems": [
    "C67_elements",
    "C67_sgd",
    "C67_momentum",
    "C67_nesterov",
    "C67_loss_data",
    "C67_averages",
    "C67_training_data"
   ],
   "note": "Over real numbers, under the assumptions of C66 at each visited point; without gradient and weight modifiers."
  },
  {
   "property": "C68",
   "status": "partial",
   "theorems": [
    "C68_weight_modifiers",
    "C68_gradient_modifiers",
    "C68_update",
    "C68_no_modifiers",
    "C68_clip",
    "C68_mask",
    "C68_freeze",
    "C68_norm",
    "C68_penalty",
    "C68_untrained_decay",
    "C68_masked_gradient",
    "C68_places",
    "C68_freeze_refuted"
   ],
   "note": "Refuted for FreezeValues without given weights: it remembers the weights after the first update (C68_freeze_refuted); from then on they are kept (C68_freeze). All other parts proved, under the assumptions of C67 (no smoothness needed for the constraints); mu and sigma of BatchNorm are excluded where the stepper rule is stated; ConstrainL2Norm as only modifier of its view and for rows at most fmax times too long."
  },
  {
   "property": "C69",
   "status": "proved",
   "theorems": [
    "C69_outputs",
    "C69_only_outputs",
    "C69_eval_data",
    "C69_same_loss",
    "C69_monitoring"
   ],
   "note": "Under the assumptions of C66 on the architecture (supported layers, differentiable connections); C69_eval_data for networks with at least one parameter."
  },
  {
   "property": "C70",
   "status": "proved",
   "theorems": [
    "C70_dataset_loss",
    "C70_dataset_score",
    "C70_local",
    "C70_batch_loss",
    "C70_reported_loss",
    "C70_reported_score",
    "C70_training"
   ],
   "note": "Under the assumptions of C66 on the architecture and for networks with at least one parameter; targets of SoftmaxCE layers are class labels. Loss layers whose inputs have no time axis are excluded from the statements about losses, as the property says."
  },
  {
   "property": "C71",
   "status": "partial",
   "theorems": [
    "C71_reading",
    "C71_characters",
    "C71_integers",
    "C71_decimals",
    "C71_layers",
    "C71_network",
    "C71_same_line",
    "C71_whitespace_refuted",
    "C71_data_name_refuted",
    "C71_cifar_example_refuted",
    "C71_use_conv_refuted"
   ],
   "note": "Proved for one output dimension, input data named default and lines whose layers fit their inputs; the memory layout exists by C72_spec_lines. Refuted: whitespace being ignored, other data names, the second example of the documentation, use_conv for one output dimension."
  },
  {
   "property": "C72",
   "status": "proved",
   "theorems": [
    "C72_spec_lines",
    "C72_layout_iff",
    "C72_refused",
    "C72_single_sources",
    "C72_triangle"
   ],
   "note": "For connections that start at outputs, as the property says."
  },
  {
   "property": "C73",
   "status": "proved",
   "theorems": [
    "C73_training",
    "C73_exponential",
    "C73_gradient_descent",
    "C73_momentum",
    "C73_nesterov"
   ],
   "note": "For hooks that stop only at the end of epochs and runs without exceptions, as the property says; what else is idealised is listed in DESIGN.md."
  },
  {
   "property": "C74",
   "status": "partial",
   "theorems": [
    "C74_exact_fraction",
    "C74_call",
    "C74_training",
    "C74_continue_refuted",
    "C74_single_batch_refuted",
    "C74_stop_refuted"
   ],
   "note": "Proved for new trainers and epochs of at least two batches without a stop inside an epoch (C74_training, C74_call). Refuted otherwise: epochs of one batch show no bar; continuing a finished training stops before the first update, because the finished generator raises StopIteration; continuing after a stop within an epoch raises an AssertionError."
  },
  {
   "property": "C75",
   "status": "partial",
   "theorems": [
    "C75_saved",
    "C75_like_extract",
    "C75_duplicates",
    "C75_lengths",
    "C75_one_step_refuted"
   ],
   "note": "Proved for batches of equal sequence length (C75_saved, C75_like_extract), with duplicates refused (C75_duplicates) and other lengths than the first batch's refused except a single step (C75_lengths). Refuted for a later batch of a single step, whose values are repeated over time."
  },
  {
   "property": "C76",
   "status": "partial",
   "theorems": [
    "C76_calls",
    "C76_earlier_hooks_refuted",
    "C76_updates",
    "C76_epochs",
    "C76_two_hooks_refuted"
   ],
   "note": "Proved for the StopOnSigQuit hook that is started last, among arbitrary other hooks (C76_calls, C76_updates, C76_epochs). Refuted for all other StopOnSigQuit hooks of the trainer: they receive no signals and never stop the training (C76_earlier_hooks_refuted)."
  },
  {
   "property": "C77",
   "status": "partial",
   "theorems": [
    "C77_saved",
    "C77_training",
    "C77_text_refuted"
   ],
   "note": "Proved for all logs of numbers and all trainings that raise no exception (C77_saved, C77_training). Refuted if a text is logged: the message of StopOnSigQuit makes the next call of SaveLogs raise a TypeError, so the training ends with an exception or cannot be continued."
  },
  {
   "property": "C78",
   "status": "proved",
   "theorems": [
    "C78_initialized",
    "C78_unknown",
    "C78_interval",
    "C78_activations",
    "C78_layers",
    "C78_network"
   ],
   "note": "For the networks of all spec lines (C78_network) and all networks (C78_initialized, C78_unknown); seeds are left out (DESIGN.md)."
  }
 ]
}
