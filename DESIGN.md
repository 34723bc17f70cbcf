# Design of the formal model of IDSIA/brainstorm

The model and the proofs are in `rocq/theories` (Rocq/Coq 8.16.1, logical name `Verif`).
`properties.jsonl` lists the properties, `MANIFEST.json` the theorems proved for each.

## Method

* Every modelled Python function becomes a total, computable Gallina function (numeric code: a function over
  Coq's real numbers `R`), in a file `<Topic>Model.v`; each definition cites file and lines in /repo.
  Exceptions are values (`option` or an error constructor). `while` loops use explicit fuel with a separate
  out-of-fuel value that the theorems exclude.
* Small specifications that do not use the helpers of the model stand at the top of the proof files or beside the
  theorems.
* `<Topic>Props.v` contains the property theorems (named after the property: `C12_…`), each followed by
  `Print Assumptions`, and examples that meet the hypotheses. Lemmas are in `<Topic>Proofs.v`, `<Topic>Base.v` or, when
  few, in front of the theorems.
* When the code violates a property the violation is proved as `…_refuted` with a concrete witness, and the
  strongest true variant is proved beside it (`…_partial`); the manifest marks the property "partial".
* Derivatives: for "the backward pass is the derivative of the forward pass" we use differentiable curves.
  For all functions `x_i : R -> R`, `w_j : R -> R` (inputs and parameters moving with a real parameter s) that are
  differentiable at 0 with derivatives `x'_i`, `w'_j`, the weighted sum of the outputs
  `sum_k u_k * out_k(s)` is differentiable at 0 with derivative
  `sum_i in_delta_i * x'_i + sum_j grad_j * w'_j`, where `in_delta`, `grad` are what the modelled backward pass
  computes from the output deltas `u`. This covers all partial and directional derivatives and composes (chain rule).

## Trusted base

* Coq's kernel (8.16.1), no plugins, no axioms of our own, no functors / module types.
* `Print Assumptions` is printed below each property theorem when building. Discrete parts are closed under the
  global context. Theorems about `R` use the axioms of Coq's standard library for the real numbers
  (`ClassicalDedekindReals.sig_forall_dec`, `ClassicalDedekindReals.sig_not_dec`,
  `FunctionalExtensionality.functional_extensionality_dep`, and where classical logic is used `Classical_Prop.classic`).
  The final list per theorem is at the end of this file.
* The reading of the Python source (no code is executed); Python/numpy semantics as described in the comments of
  the model files (dict iteration order arbitrary, `sorted` stable, slicing, broadcasting).
* Floating point is *not* modelled: numeric buffers hold real numbers (rounding, overflow, NaN are outside the model
  except where a property is about NaN).
* CUDA: a kernel is modelled as the set of all interleavings of its threads' writes (exact reals, unbounded integers);
  `a[i] += v` counts as one step, and the absence of races is proved separately. What pycuda's ElementwiseKernel,
  skcuda, cuBLAS and the random number generator do is trusted to be the documented operation.
* numpy's `reshape` returns a view exactly when `_attempt_nocopy_reshape` (multiarray/shape.c) succeeds; FlattenModel
  follows that function for arrays without empty axes. pycuda arrays (which refuse instead of copying) are not covered by C64.
* Views (C65): arrays are leaves without structure, so what `__getattr__` or `__getitem__` do inside arrays is not modelled; slices and negative indices of a view and pickling of views are not either.
* Network memory (C66): internals, the predictions output of loss layers and the moving averages mu and sigma of BatchNorm are not written; contexts and dropout masks are given from outside (`env`); negative class indices count as invalid instead of indexing from the end; DeltasScaling, gradient modifiers and layers fed by internals are not covered; numbers are reals.
* Training (C67): the memory of C66 plus mu and sigma of BatchNorm, written by the layer before its outputs (in the code between the computations, which do not read them); per batch the memory is arbitrary but for data and parameters; weight and gradient modifiers and hooks are left out.
* Training with modifiers (C68): each view has its own modifier objects (order_and_copy_modifiers copies them); FreezeValues with its state, on one handler; the seeding of modifiers is left out (none of them draws numbers); masks and given weights have the shape of the view; fmax is the largest float, arithmetic is exact.
* Evaluation (C69): predictions are written in evaluation passes only (no layer of the covered networks reads them, `differentiable`); internals are left out as in C66; the data of a batch is given, how iterators and their random generators produce it is left out.
* Sequences of a batch (C70): sequences of a data set have the same length (as arrays of the data iterators do); Minibatches' cutting of trailing masked time steps is left out (it is part of C27); the sequences start with equal contexts (as without context argument: zeros); the targets of SoftmaxCE are class labels (otherwise the code indexes outside of a row); the network has at least one parameter. Loss layers whose input has no time axis are excluded (`timed_losses`): without batch axis the code sums instead of averaging.
* Spec lines (C71): ASCII text; numbers with a point are exact rationals; the regular expressions are modelled by a hand-written reader. The theorem about networks is for one output dimension (then the projection is fully connected); `net.output_name` and the initialisation of the network (tools.py:586-595) are left out. Existence of the memory layout is `C72_spec_lines`.
* Existence of layouts (C72): connections from '..internals.X' or '..parameters.X' are excluded; the exceptions are those of HubModel and LayoutModel (no MemoryError, no time limit for the search over permutations).
* Runs of the trainer (C73): iterators and hooks are arbitrary functions of the network, the stepper's attributes and a rest state; iterators change only the rest state and give the same number of batches in every epoch; a batch contains the random numbers of its pass; one schedule per attribute; train_scorers and the losses of single Loss layers are left out of the scores; a run that raises an exception has no result and is not described; hooks that stop within an epoch are excluded (their epoch is C20); float arithmetic is exact.
* Progress bar (C74): the float computation of the shown fraction is any function that is monotone, reaches the bar's length exactly at the end of the epoch and not before (`sound_fraction`, shown for exact arithmetic); math.ceil(update_nr / length) is exact; the elapsed time is an arbitrary text; the iterator's attribute length is the number of its batches.
* Saved buffers (C75): of h5py, only create_dataset (an existing name and empty chunks are errors), resize along axis 1 (filled with zeros) and assignment to a slice (with numpy's broadcasting); the file's attributes and what an incomplete file holds after an exception are not modelled; a slice with negative start is an error.
* Signals (C76): a signal arrives during an update, not between the update and the end of the hook calls after it; without a handler it ends the process; the handler installed by the hook stays (nothing else sets one); the printed message is left out.
* Saved logs (C77): logged values are numbers or texts (no arrays); h5py refuses the unicode arrays numpy makes of texts; names are plain (no '/'); the value of a StopIteration is its first argument (Python 3); the attributes of the file are left out.
* Initialization from spec lines (C78): what fills a view is recorded, not the random numbers themselves; seeds are left out and views are filled in the order of the layers (Python sorts the names, which only decides about the seeds); real instead of floating point numbers. C78_network applies C78_initialized (abstract layers: name, activation, parameter shapes) to the instantiated layers of every spec line.
* Plotting, HDF5 file format and printing are not modelled; see the list per source file below.

## Properties: what is modelled and how it is proved

| id | model | proof idea |
|----|-------|-----------|
| C01 | `UniquelyNamed` scopes as a store of layers + scope tables, `>>` as a step function | invariant over all operation sequences (scope = merged group), decimal suffix injectivity |
| C02 | `LayerDetails`, `get_layer_description`, `generate_architecture`, `collect_all_connections` | reachability of the work-list loop; string split at first dot |
| C03 | `get_canonical_layer_order` with fuel | loop invariant (closed under successors); cycle ⇒ no progress |
| C04 | same | the ranked layers of each round are a sorted set, hence unique |
| C05 | same + `validate_architecture` | longest-path argument: Input is an ancestor of every layer |
| C06 | `validate_architecture`, `is_valid_layer_name` incl. the `$` regex quirk | both directions; counterexamples "foo\n", second Input |
| C07 | regex of a reference as matcher | equivalence with a declarative glob relation |
| C08 | `resolve_references` on two-level structures | characterisation of the content of each leaf |
| C09 | `get_forward_closure`, `group_into_hubs` | least closed sets, partition |
| C10 | `Hub` tables and `get_indices` | contiguity ⇔ difference-sum test, prefix sums |
| C11 | `permute_rows` over `itertools.permutations` of the nesting | completeness of the permutation enumeration |
| C12 | `get_connections`/orders/`Hub.create` for parameters and gradients | both hubs see isomorphic tables, same first permutation |
| C13 | `combine_buffer_structures` + flat hub memory | index arithmetic; refuted for >1 leading feature dims |
| C14 | `BufferManager` as a state machine over an abstract memory | invariant over histories |
| C15 | memory addresses of buffer elements | injectivity of address arithmetic |
| C16 | recurrent forward loops with context rows | induction over time; clockwork refuted |
| C17 | hub buffers, `clear_context` | frame property; refuted for shared hubs |
| C18–C20 | `Trainer.train` as a state machine producing a trace of hook calls | trace characterisation by induction |
| C21 | `add_hook`, sort by priority | strictly increasing priorities |
| C22, C23, C56 | hook state machines | induction over logs |
| C24 | schedules over R | algebra, monotonicity |
| C25 | steppers over R vectors | closed forms by induction |
| C26–C29 | iterators over lists | chunk/permutation lemmas |
| C30 | aggregation over R | sums over partitions |
| C31, C32 | `extract`, `split`, `shuffle_data` | list lemmas |
| C33, C34, C51 | RNG as an abstract generator (section variables: seeding and drawing functions) | dependence analysis of evaluation |
| C35, C36 | description trees | structural induction, counterexamples |
| C37 | modifiers over R | algebra |
| C38–C48 | numpy kernels and layers over R | curves, adjoint identities, induction over time |
| C49, C50 | network of abstract layers with delta accumulation (NetworkModel); all layer types as instances (NetLayersModel) | induction over the layer order; the layer theorems C40–C48, C58 give what each instance needs |
| C52–C55, C57 | utilities, structures | induction / case analysis |
| C58 | ClockworkLstm: LSTM step, undone for the units whose clock does not tick | curves, induction over time; refuted for timing 0 and contexts |
| C59 | LstmOptInit with nested initializers | row blocks |
| C60 | CUDA kernels as lists of writes per thread, executions as interleavings | each cell has one owner thread (or only atomic additions), so every interleaving yields the same; then equality with the CPU model |
| C61 | `setup` of all layer classes (SetupModel), each pass as the list of operations with the shapes of their arguments (PassShapesModel) | one lemma per layer class: all operations fit; conversely a failing operation for each unchecked condition |
| C62 | `instantiate` of SetupModel, once more with an arbitrary lawful enumeration of each set (InstanceProps) | `instantiate` inverted into the creation of each layer; one soundness lemma per layer class; sorting makes the enumeration irrelevant |
| C63 | C62's layers translated to the layers of LayoutModel (NetLayoutProofs: `layout_layer`), then `create_layout` and the views of BuffersModel | the hypotheses of C11–C15 follow from C62 and the success of `create_layout`; sizes of inputs add up; deltas by the mirror lemmas of C12 |
| C64 | numpy's `_attempt_nocopy_reshape` on strided arrays, the flatten functions, memory with copies (FlattenModel) | a reshape is a view exactly if every break between non-contiguous axes is also a break between new axes; the buffers of C63 have at most one such break |
| C65 | BufferView objects on a heap: list content, instance attributes, methods found through the instance, `create_buffer_views_from_layout` with and without old views (ViewModel) | a tree is shown by a view if every node of it is found by keys, attributes and dotted paths; creation and adjustment keep that and touch no other objects; the layout tree of a network has the same form for all sizes |
| C66 | forward and backward pass on one memory: each layer reads and writes the cells its buffers have in the layout (MemoryPassModel, NetMemoryModel) | the memory simulates the state of C49 as long as buffers are placed without overlap and the deltas mirror the outputs; C62, C63 give this for created networks (CellsProofs, NetMemoryProofs), the setup of each layer type gives the sizes (NetSizesProofs), C50 the clearing; forward: the cells of a layer keep their values until the end of the pass (NetForwardProofs), and the packed parameters split at the sizes of the named ones (NetPartsProofs) |
| C67 | the steppers on the network's memory: read all parameters, passes of C66 with the moving averages of BatchNorm, read all gradients, write all parameters (TrainNetModel) | net.buffer.parameters and gradients list the elements of the named buffers in the same order (C63); the passes keep parameters; gradients from C66; the forward pass reads data, parameters and earlier outputs only (TrainNetProofs) |
| C68 | modifiers installed per view, applied on the cells of the views after the backward pass and after the stepper (ModNetModel) | views of different parameters have no common cells (C63); each view is a run of elements of net.buffer.parameters (ModNetProofs); effects of the modifiers from C37; refuted for FreezeValues() without weights: the first update still changes the weights |
| C69 | forward passes with training_pass=False on the memory; runs of updates and evaluations (EvalNetModel) | no layer writes its inputs or parameters, so after the pass each output is the layer's value for the final inputs (EvalNetProofs); a relation between monitored and plain runs on the elements of the parameters, kept by updates (C67, C68 lemmas) and evaluations |
| C70 | the evaluation passes of C69 (EvalNetModel), minibatches of a data set (DataNetModel), aggregation of losses and scores (ScorersModel) | two passes on different batches are compared row by row: induction over the layers and, within recurrent layers, over the time steps (LocalLayersProofs, LocalNetProofs, LocalNetProofs2); loss sums are split by sequence; gradients by linearity of the derivative |
| C71 | reading of spec lines, create_layer, get_in_out_layers, the program of wirings (SpecModel) on top of the construction interface (NamesModel), architectures and layer instances (ArchModel, SetupModel) | relation between texts and items, documented meaning of items (`means`), features along the chain (`flows`); the canonical order of a chain is unique (SpecChain); each layer's structures follow by induction along the chain (SpecNet). Refuted: whitespace separates, data_name other than 'default' and the cifar10 example of the documentation fail, use_conv is ignored for one output dimension |
| C72 | LayoutModel and HubModel for the layers of SetupModel's `instantiate` (NetLayoutProofs.layout_layer) | hubs of outputs, of parameters and of single buffers are treated separately (LayoutExist); the search of a hub succeeds if an order exists (C11); an order of all outputs restricts to each hub and the hubs' orders concatenate to one (LayoutExistProofs); structures of sources of one input have one type (C62, LayoutNet); three pairwise neighbours are impossible by positions |
| C73 | TrainRunModel: TrainerModel's loop with the updates of ModNetModel, the losses in the memory after the stepper's run, MonitorLoss by EvalNetModel, ModifyStepperAttribute with SchedulesModel's schedules | the loss read after the update is that of the batch at the visited parameters (the backward pass and the update leave output cells alone); emissions of hooks keep `tracks` (C69) and set attributes to the schedules' values at their last call; induction over batches and epochs (TrainRunProofs); logs by C18, C20, losses by C69, gradient descent by C19, C67, C68 |
| C74 | ProgressModel: the generator as a state (position in its loop, or at its last yield), the hook's call, printed text; TrainerModel's loop | the slices of the bar join; invariant of the hook's state after k updates of an epoch (ProgressProofs); induction over hooks, batches, epochs; refuted for epochs of one batch (nothing is shown), for continuing a finished training (the old generator raises StopIteration, which the trainer takes for a stop request, so nothing is trained) and after a stop within an epoch (AssertionError) |
| C75 | SaveBufModel: `extract_and_save`, the file as the list of its datasets | invariant of the datasets over the batches; a position lemma gives the agreement with `extract` (C31); a buffer named twice is always refused, a later batch has the first one's length or a single step; refuted for a later batch of a single step, which is repeated over time |
| C76 | SigQuitModel: the flags of the hooks, the process' signal handler, signals by the number of the update in which they arrive; TrainerModel's loop | invariant: the flag is set iff a signal arrived in the updates of the trace so far; the ends of training follow with C18 and C20; of several StopOnSigQuit hooks exactly the one started last receives signals, the others never stop the training (C76_earlier_hooks_refuted) |
| C77 | SaveLogsModel: nested logs of numbers and texts, the HDF5 file as nested groups and datasets; TrainerModel's loop | structural induction over the logs; invariant of file and logs over the trace of the training; refuted when a text is logged: StopOnSigQuit's message (the value of its StopIteration) makes a later call of SaveLogs raise a TypeError |
| C78 | SpecInitModel: the dictionary of initializers (tools.py:588-593), Network.initialize with default and fallback, DenseSqrtFanInOut's table and values; ViewRefsModel, SpecModel | which references select and which fallback a view inherits (characterisation of C08); induction over the views; case analysis of the spec's layers; an activation without a scale (el) gives a KeyError that the fallback does not catch (C78_unknown) |

## What is modelled, per source file

| source | modelled | not modelled, simplifications |
|--------|----------|-------------------------------|
| `structure/construction.py` | scopes, names, `>>`, `LayerDetails` (NamesModel) | `-` on wrappers (selecting inputs/outputs) is part of the operation that wires two layers; `__repr__` |
| `structure/architecture.py` | `generate_architecture`, `validate_architecture`, `collect_all_connections`, `get_canonical_layer_order` (NamesModel, ArchModel) and `instantiate_layers_from_architecture` (SetupModel) | `get_kwargs` copies; a set of connections is a list without duplicates |
| `structure/layout.py` | all (HubModel, LayoutModel) | layer names containing '@' |
| `structure/buffers.py`, `buffer_views.py` | `BufferManager`, arrays as offsets and strides (BuffersModel), view objects (ViewModel) | sequences or batches of size 0 |
| `structure/buffer_structure.py` | validation, templates, combination (ShapesModel), `create_from_buffer_hub` (BuffersModel) | `__repr__`, `to_json`, hashing |
| `structure/view_references.py` | all (ViewRefsModel) | references nested deeper than layer and view |
| `structure/network.py` | initialising, setting modifiers, saving, loading (RandomModel, SaveModel), forward and backward pass (NetworkModel, NetLayersModel), contexts (ContextModel), `get_loss_values` (HooksModel) | HDF5 and JSON encoding; rectangular lists only; `create_from_…` of layers is a parameter |
| `layers/*.py`, `layers/base_layer.py` | `Layer.__init__` and `get_shape` (SetupModel); forward and backward pass of all layers (LayersModel, RecurrentModel, ClockLstmModel, ConvModel, PoolModel); `setup` of all layers (SetupModel); the operations of the passes with their shapes (PassShapesModel) | – |
| `handlers/numpy_handler.py`, `_cpuop.pyx` | all operations the layers use (NumpyModel, ConvModel, PoolModel) | rounding, NaN; random numbers |
| `handlers/pycuda_handler.py` | all kernels and their launches (CudaModel) | what pycuda and skcuda do; C integer overflow |
| `handlers/debug_handler.py` | the shape assertions (PassShapesModel `call_ok`) | assertions on values, NaN checks, the wrapping of arrays |
| `training/*.py` | trainer (TrainerModel), steppers and schedules (SchedulesModel) | printing; the batches of an epoch are produced when it starts |
| `hooks.py` | stopping, saving the best network, thresholds, NaN, layer monitors (HooksModel), MonitorLoss and ModifyStepperAttribute (TrainRunModel), progress bar (ProgressModel), StopOnSigQuit (SigQuitModel), SaveLogs (SaveLogsModel) | plotting, InfoUpdater |
| `data_iterators.py` | all iterators (IteratorsModel) | sizes reported for printing |
| `initializers.py`, `randomness.py` | all (RandomModel) | the generator is a parameter; `seed=None` (fresh entropy) |
| `value_modifiers.py` | all (ModifiersModel) | |
| `scorers.py` | all (ScorersModel) | rows with incompatible lengths |
| `describable.py` | all (DescribeModel) | object identity |
| `tools.py` | `extract`, `shuffle_data`, `split`, `evaluate` (ToolsModel, ScorersModel), `extract_and_save` (SaveBufModel), `get_in_out_layers`, `create_net_from_spec` up to the creation of the network (SpecModel) | drawing, printing, the default initialisation |
| `utils.py` | paths, names, nested structures (UtilsModel), flattening (FlattenModel), progress_bar (ProgressModel) | other printing |

## Assumptions of each theorem

`Print Assumptions` below each theorem lists exactly these axioms of the standard library:
`ClassicalDedekindReals.sig_forall_dec`, `ClassicalDedekindReals.sig_not_dec`, `FunctionalExtensionality.functional_extensionality_dep` (funext), `Classical_Prop.classic`.

* **none (closed under the global context)**: C01_programs_run, C01_names_unique, C01_names_total, C01_unshared_base_name, C01_shared_base_name_numbered, C02_collect_connected, C02_generate_architecture_lossless, C03_acyclic_ordered, C03_cyclic_rejected, C04_order_canonical, C04_connections_canonical, C04_order_by_height_and_name, C05_input_first, C05_dangling_layer_first_refuted, C06_validation_exact, C06_valid_names, C06_exactly_one_input_refuted, C06_names_are_identifiers_refuted, C06_missing_connections_keyerror, C07_wildcards, C07_wildcards_any_key, C07_mapping, C07_unmatched_is_error, C08_resolution, C08_resolution_total, C08_specific_wins, C08_prune, C08_default_only_if_unmatched_refuted, C08_dict_default_refuted, C09_closure, C09_partition, C09_total, C09_merge, C10_sources, C10_disjoint_cover, C10_sinks, C10_attributes, C11_failure, C11_success, C11_forced_orders, C12_same_offsets, C12_concatenation, C12_deltas, C13_flattened, C13_one_dimensional, C13_multi_dimensional_refuted, C14_parameters_survive, C14_memory_large_enough, C14_parameter_view, C14_other_buffers, C15_views_exist, C15_disjoint, C15_inside, C15_write, C16_context_rows, C17_no_context_partial, C17_with_context, C17_clear_context_refuted, C18_update_hooks, C18_epoch_hooks_partial, C18_only_these, C18_numbering, C18_position, C18_stop_before_training_refuted, C19_stop_after_epoch, C19_first_multiple, C20_remaining_hooks, C20_stop, C20_epoch_completed, C20_logs, C21_hook_order, C21_order_of_addition, C21_shared_hook_refuted, C22_early_stopper, C22_missing_log, C22_stops_after_patience, C23_save_best, C24_multi_step, C24_multi_step_interval, C26_partition, C27_mask, C27_lengths, C28_minibatches_partial, C28_undivided_partial, C28_inplace_partial, C28_undivided_refuted, C28_flip_refuted, C29_one_hot, C29_multi_hot, C29_pad_partial, C29_pad_zero_refuted, C29_crop, C29_flip, C31_extract_partial, C31_duplicate_refuted, C31_lengths_refuted, C32_shuffle, C32_split, C35_restored, C35_recreatable, C35_same_description, C35_library, C35_uniform_refuted, C35_array_refuted, C35_type_key_refuted, C36_load_partial, C36_modifiers_work, C36_uninitialised_refuted, C36_uniform_refuted, C36_nested_array_refuted, C36_shared_refuted, C36_modifier_state_refuted, C37_freeze, C37_freeze_all, C40_binomial_shape, C40_binomial_shape_refuted, C41_merge_places, C45_size, C46_windows, C50_cleared, C51_isolated, C51_values, C51_reset, C51_pickle, C51_derived, C51_created, C52_paths_like_directories_partial, C52_normalisation_idempotent, C52_dotdot_inside_argument_refuted, C52_final_dotdot_refuted, C53_nested_indices, C53_index_of_element, C53_flatten_keys, C53_get_by_path, C54_structure_validation, C54_template_validation, C54_template_matching, C54_unscaled_wildcard_matches_everything_refuted, C54_combination, C54_combined_size, C56_threshold, C56_nan_first_refuted, C56_missing_log, C56_stop_on_nan, C60_broadcast, C61_passes_fit, C61_usable_needed, C61_unknown_activation_refuted, C61_drop_everything_refuted, C61_binomial_refuted, C61_big_kernel_refuted, C62_structures_valid, C62_inputs, C62_connections, C62_order_irrelevant, C63_views, C63_disjoint, C63_inputs, C63_parameters, C64_flatten_time, C64_flatten_time_and_features, C64_flatten_all_but_last, C64_memory, C64_batch_norm_refuted, C64_softmax_refuted, C65_views, C65_network, C65_adjust_refuted, C65_items_refuted, C65_parameters_refuted, C67_elements, C68_places, C71_reading, C71_characters, C71_integers, C71_decimals, C71_layers, C71_network, C71_same_line, C71_whitespace_refuted, C71_data_name_refuted, C71_cifar_example_refuted, C71_use_conv_refuted, C72_spec_lines, C72_layout_iff, C72_refused, C72_single_sources, C72_triangle, C74_exact_fraction, C74_call, C74_training, C74_continue_refuted, C74_single_batch_refuted, C74_stop_refuted, C75_saved, C75_like_extract, C75_duplicates, C75_lengths, C75_one_step_refuted, C76_calls, C76_earlier_hooks_refuted, C76_updates, C76_epochs, C76_two_hooks_refuted, C77_saved, C77_training, C77_text_refuted, C78_activations, C78_layers
* **sig_forall_dec**: C16_pointwise, C25_start, C33_seeded_partial, C59_blocks, C60_merge_partial, C60_merge_refuted, C60_split_partial, C60_split_refuted
* **funext, sig_forall_dec**: C16_network, C16_pieces, C24_linear, C24_linear_monotone, C24_exponential, C24_exponential_step, C24_decrease_after_epoch, C25_sgd, C25_momentum, C25_momentum_geometric, C25_no_momentum, C25_nesterov, C30_scores, C30_losses, C30_constant_losses, C30_evaluate, C30_same_name_refuted, C30_accuracy, C30_hamming, C33_sparse_refuted, C34_sparse, C34_units_refuted, C37_clip, C37_clip_swapped, C37_mask, C37_l1, C37_l1_subgradient, C37_l2, C41_highway, C41_merge, C41_mask, C41_noop, C41_squared_difference, C41_squared_error, C41_l1_decay, C41_l2_decay, C41_loss, C44_ticks, C45_other_images, C46_max_forward, C46_max_empty, C46_lowest_refuted, C46_max_backward, C46_max_gradient, C46_avg_forward, C46_avg_empty, C46_avg_gradient, C46_float32_refuted, C47_evaluation, C47_scaled, C47_refuted, C48_ema, C49_backprop, C49_gradient, C49_input_delta, C50_fresh, C50_repeat, C55_losses, C57_gradients, C57_parameters, C57_in_outs, C57_deltas_refuted, C57_deltas_partial, C60_im2col, C60_col2im, C60_maxpool_forward, C60_avgpool_forward, C60_avgpool_backward, C60_maxpool_backward, C60_maxpool_partial, C60_maxpool_float32_refuted, C60_binarize_partial, C60_binarize_refuted, C60_index, C60_modulo_partial, C60_modulo_refuted, C60_softmax_max, C73_exponential
* **funext, sig_forall_dec, sig_not_dec**: C16_recurrent, C16_recurrent_layer, C16_lstm, C16_lstm_layer, C16_clockwork_aligned_partial, C16_clockwork_refuted, C37_constrain, C37_constrain_bias, C38_kink, C38_sigmoid, C38_inplace, C41_fully_connected_adds_refuted, C43_context_refuted, C44_forward, C45_forward, C48_normalised, C48_running, C48_evaluation, C48_gradient, C58_clock, C58_context_refuted, C58_zero_refuted, C60_conv_forward, C60_conv_backward, C60_elementwise, C60_softmax, C60_softmax_races, C68_weight_modifiers, C68_gradient_modifiers, C78_initialized, C78_unknown, C78_interval, C78_network
* **classic, funext, sig_forall_dec, sig_not_dec**: C38_derivative, C39_softmax, C40_softmax, C40_sigmoid, C40_binomial, C40_clipping_refuted, C41_fully_connected, C41_elementwise, C42_exact, C43_exact, C43_context_partial, C44_exact, C45_gradient, C49_layers, C49_network, C50_layers, C50_network, C58_exact, C58_context_partial, C66_gradients, C66_input_deltas, C66_forward, C67_sgd, C67_momentum, C67_nesterov, C67_loss_data, C67_averages, C67_training_data, C68_update, C68_no_modifiers, C68_clip, C68_mask, C68_freeze, C68_norm, C68_penalty, C68_untrained_decay, C68_masked_gradient, C68_freeze_refuted, C69_outputs, C69_only_outputs, C69_eval_data, C69_same_loss, C69_monitoring, C70_dataset_loss, C70_dataset_score, C70_local, C70_batch_loss, C70_reported_loss, C70_reported_score, C70_training, C73_training, C73_gradient_descent, C73_momentum, C73_nesterov
