{"id": "C01", "title": "Layers wired together always have distinct names", "statement": "After any sequence of layer creations and `>>` wirings, any two different layers that are (directly or transitively) wired together report different `.name`s; a layer whose base name is not shared reports exactly its base name.", "quantifier": "every finite sequence of layer creations (any base names, repeated or of the form X_3) and `>>` operations; every pair of layers in a connected group", "why_tests_cant": "the space of base-name collections and wiring orders is infinite; collisions would come from rare interactions between derived names (A_1) and user-given names", "anchors": ["brainstorm/structure/construction.py: UniquelyNamed.merge_scopes, UniquelyNamed.name, ConstructionWrapper.__rshift__"]}
{"id": "C02", "title": "Generating an architecture loses no layer and no connection", "statement": "`generate_architecture(l)` contains one entry per layer connected to `l` (in either direction) and `collect_all_connections` of the result is exactly the set of wirings that were made between these layers (with output and input names).", "quantifier": "every sequence of creations and wirings; every start layer", "why_tests_cant": "a lost layer appears only for particular graphs / names / traversal orders", "anchors": ["brainstorm/structure/construction.py: LayerDetails.collect_connected_layers", "brainstorm/structure/architecture.py: get_layer_description, generate_architecture, parse_connection, collect_all_outgoing_connections, collect_all_connections"]}
{"id": "C03", "title": "Layers are ordered topologically, cycles are rejected", "statement": "`get_canonical_layer_order` returns each layer exactly once with every connection going from an earlier to a later layer whenever the architecture has no cycle, and fails (AssertionError) whenever it has one.", "quantifier": "every architecture whose connections end in defined layers; any size", "why_tests_cant": "unit tests cover a handful of graphs; order must be right for every DAG, and every cyclic graph must be rejected", "anchors": ["brainstorm/structure/architecture.py: get_canonical_layer_order"]}
{"id": "C04", "title": "The layer order is canonical", "statement": "The layer order depends only on the architecture as a set of layers and connections: any reordering of the dictionaries / connection lists yields the same order.", "quantifier": "every architecture and every permutation of its dict items and connection lists", "why_tests_cant": "dict iteration order varies between Python versions and runs (hash randomisation); a test sees one order", "anchors": ["brainstorm/structure/architecture.py: get_canonical_layer_order, collect_all_connections"]}
{"id": "C05", "title": "The input layer comes first", "statement": "If in an accepted architecture every layer except `Input` has at least one incoming connection then `Input` is the first layer in the order, so that `forward_pass`/`backward_pass` (which skip the first layer) skip exactly the Input layer.", "quantifier": "every accepted acyclic architecture of that kind", "why_tests_cant": "depends on the relative depth of all layers in an arbitrary DAG", "anchors": ["brainstorm/structure/architecture.py: get_canonical_layer_order, validate_architecture", "brainstorm/structure/network.py: Network.forward_pass, Network.backward_pass"]}
{"id": "C06", "title": "Accepted architectures are well-formed", "statement": "If `validate_architecture` accepts, then all layer names are identifiers other than the reserved ones, all connections end in defined layers, there is exactly one Input layer, it is called Input, and nothing connects to it; if it rejects one of these is violated.", "quantifier": "every architecture dictionary with string names", "why_tests_cant": "infinitely many names and graphs; includes odd names such as one ending in a newline, and a second layer of type Input", "anchors": ["brainstorm/structure/architecture.py: validate_architecture", "brainstorm/utils.py: is_valid_layer_name, PYTHON_IDENTIFIER, NAME_BLACKLIST"]}
{"id": "C07", "title": "Wildcard references match exactly the intended views", "statement": "A reference key selects exactly the keys obtained by replacing each `*` by a (possibly empty) run of identifier characters; a key that matches nothing is reported as an error, and 'default'/'fallback' are never treated as patterns.", "quantifier": "every reference string and every key", "why_tests_cant": "all strings and all ways of splitting them", "anchors": ["brainstorm/structure/view_references.py: get_regex_for_reference, get_key_to_references_mapping"]}
{"id": "C08", "title": "Reference resolution: specific references win over defaults", "statement": "When resolving initializers/modifiers every view gets exactly the values of the references matching its path; the innermost applicable 'default' applies to it if and only if no reference matched; nothing is dropped and no other view is affected.", "quantifier": "every two-level buffer structure and every reference dictionary", "why_tests_cant": "interactions of wildcards, defaults on several levels and explicit names are combinatorial", "anchors": ["brainstorm/structure/view_references.py: resolve_references, apply_references_recursively, append_to_all_leaves, evaluate_defaults", "brainstorm/structure/network.py: Network.initialize"]}
{"id": "C09", "title": "Buffers that share a consumer are grouped together, all others are independent", "statement": "The buffer hubs created for a network partition all the source buffers; the sources/sinks of one hub are exactly one connected component of the source-sink connection graph.", "quantifier": "every list of sources and connections", "why_tests_cant": "closure computation over an arbitrary graph", "anchors": ["brainstorm/structure/layout.py: get_forward_closure, merge_connections, group_into_hubs"]}
{"id": "C10", "title": "The memory of a hub is laid out correctly", "statement": "In a hub the source buffers occupy disjoint, adjacent slices covering the hub exactly, and the slice of every sink is exactly the union of the slices of the sources connected to it.", "quantifier": "every connection table (in which every sink has a source) for which a layout is found, all buffer sizes", "why_tests_cant": "all permutations and tables; an off-by-one would silently let layers read each other's data", "anchors": ["brainstorm/structure/layout.py: Hub.setup, Hub.permute_rows, Hub.can_be_connected_with_single_buffer, Hub.get_indices"]}
{"id": "C11", "title": "A layout is found whenever there is one", "statement": "Hub creation fails with 'Failed to lay out buffers' only if no order of the (grouped) sources makes the sources of every sink adjacent; forced orders (parameters of one layer) are kept contiguous and in order.", "quantifier": "every nesting and connection table", "why_tests_cant": "factorially many permutations", "anchors": ["brainstorm/structure/layout.py: Hub.permute_rows", "brainstorm/utils.py: flatten, convert_to_nested_indices"]}
{"id": "C12", "title": "Gradients mirror parameters", "statement": "`net.buffer.parameters` is the concatenation of the layers' parameters, `net.buffer.gradients` is the concatenation of the layers' gradients in the same order with the same offsets, so that element i of one corresponds to element i of the other (what steppers rely on).", "quantifier": "every network (layers with any parameter shapes)", "why_tests_cant": "must hold for every combination of layer names and parameter shapes; a mismatch silently corrupts training", "anchors": ["brainstorm/structure/layout.py: get_connections, get_parameter_order, get_gradient_order, create_layout, Hub.create"]}
{"id": "C13", "title": "Several incoming connections are concatenated along the last feature dimension", "statement": "When several buffers are connected to the same input of a layer, the layer sees them concatenated along the last feature dimension (documented by combine_buffer_structures), each entry being the corresponding entry of one source.", "quantifier": "all feature shapes (any number of dimensions), any number of sources", "why_tests_cant": "all shapes; single-dimension tests cannot reveal the problem with images", "anchors": ["brainstorm/structure/buffer_structure.py: combine_buffer_structures, BufferStructure.create_from_buffer_hub", "brainstorm/structure/layout.py: Hub.get_indices"]}
{"id": "C14", "title": "Parameters survive resizing and changing the handler", "statement": "For any history of resizes (new batch sizes / sequence lengths), handler changes and parameter writes, reading the parameters returns the values last written.", "quantifier": "every finite history of operations and every hub configuration", "why_tests_cant": "depends on the interplay between re-allocation, re-slicing and copying for arbitrary size histories", "anchors": ["brainstorm/structure/buffers.py: BufferManager.resize, BufferManager.set_handler, get_total_size_slices_and_shapes", "brainstorm/structure/network.py: Network.provide_external_data, Network.set_handler"]}
{"id": "C15", "title": "Different buffers never overlap", "statement": "Two different source buffers (outputs, parameters, internals, deltas...) never share a memory cell, whatever the batch size and sequence length; writing to one never changes another.", "quantifier": "all hub configurations, all sizes T and B, all pairs of buffers", "why_tests_cant": "aliasing only shows for particular size combinations", "anchors": ["brainstorm/structure/buffers.py: get_total_size_slices_and_shapes, create_buffer_views_from_layout", "brainstorm/structure/buffer_structure.py: BufferStructure.create_from_buffer_hub", "brainstorm/structure/layout.py: Hub.get_shape"]}
{"id": "C16", "title": "Carrying on a sequence with a context", "statement": "Running a recurrent network on a sequence of T1+T2 steps gives the same outputs as running it on the first T1 steps and then, with the context returned by `get_context`, on the remaining T2 steps.", "quantifier": "all sequences, all T1,T2 >= 1, all weights; Recurrent, LSTM (holds) and Clockwork (does not hold)", "why_tests_cant": "unbounded sequences and split points", "anchors": ["brainstorm/structure/buffers.py: BufferManager.get_context, BufferManager.apply_context", "brainstorm/structure/network.py: Network.forward_pass, Network.get_context", "brainstorm/layers/recurrent_layer.py", "brainstorm/layers/lstm_layer.py", "brainstorm/layers/clockwork_layer.py"]}
{"id": "C17", "title": "A forward pass uses the data that was provided", "statement": "After `provide_external_data` a forward pass leaves the provided input data unchanged, i.e. the layers see exactly the provided values.", "quantifier": "all networks, all T and B, with and without context", "why_tests_cant": "only certain wirings (a recurrent output and an input sharing a consumer) trigger the violation", "anchors": ["brainstorm/structure/buffers.py: BufferManager.clear_context", "brainstorm/structure/network.py: Network.forward_pass, Network.provide_external_data", "brainstorm/structure/layout.py: Hub.create"]}
{"id": "C18", "title": "Hooks are called exactly when they should be", "statement": "During training a hook with timescale 'update' (resp. 'epoch') and interval k is called exactly once before training starts and after those updates (epochs) whose running number is a multiple of k; hooks of one timescale are called in the order they were added.", "quantifier": "every list of hooks, all intervals, all numbers of batches per epoch, all points at which a hook requests a stop", "why_tests_cant": "the interleaving of hooks, epochs and updates is unbounded", "anchors": ["brainstorm/training/trainer.py: Trainer.train, Trainer._emit_hooks, Trainer._call_hook"]}
{"id": "C19", "title": "Training runs for exactly the required number of epochs", "statement": "With StopAfterEpoch(n) as only stopper (interval k) training a fresh trainer on an iterator with m batches terminates after exactly the first multiple of k that is >= n epochs, having performed m updates per epoch.", "quantifier": "all n, k, m", "why_tests_cant": "unbounded loop", "anchors": ["brainstorm/training/trainer.py: Trainer.train", "brainstorm/hooks.py: StopAfterEpoch"]}
{"id": "C20", "title": "A stop request does not suppress other hooks or logs", "statement": "If one hook requests a stop the remaining hooks of that timescale are still called and their logs recorded; after a stop during an epoch the epoch's training scores are logged and the epoch hooks still run; log lists only ever grow by appending.", "quantifier": "every list of hooks and every subset requesting a stop", "why_tests_cant": "all orders and subsets", "anchors": ["brainstorm/training/trainer.py: Trainer.train, Trainer._emit_hooks, Trainer._call_hook, Trainer._add_log"]}
{"id": "C21", "title": "Hook order survives saving and loading a trainer", "statement": "Describing a trainer and re-creating it from the description (with the hook dictionary in any order) yields the hooks in the order in which they had been added.", "quantifier": "every sequence of add_hook calls (also of hooks used before), every permutation of the description's dictionary", "why_tests_cant": "dictionary order in a JSON document is arbitrary", "anchors": ["brainstorm/training/trainer.py: Trainer.add_hook, Trainer.__init_from_description__"]}
{"id": "C22", "title": "Early stopping stops exactly after `patience` epochs without improvement", "statement": "EarlyStopper requests a stop if and only if more than `patience` - 1 values have been logged after the first occurrence of the best logged value (i.e. at least `patience` entries without improvement); while the log is missing it never stops.", "quantifier": "every log sequence, patience >= 1 and both criteria", "why_tests_cant": "all sequences of real values", "anchors": ["brainstorm/hooks.py: EarlyStopper"]}
{"id": "C23", "title": "SaveBestNetwork keeps the best parameters", "statement": "After any run the parameters stored by SaveBestNetwork are those the network had the first time the best value of the monitored log was reached, and best_so_far is that value.", "quantifier": "every sequence of log values and parameters", "why_tests_cant": "all histories", "anchors": ["brainstorm/hooks.py: SaveBestNetwork"]}
{"id": "C24", "title": "Schedules follow their documented curves", "statement": "Linear starts at its initial value, is monotone between initial and final value, reaches the final value after num_changes changes and stays there; Exponential stays within its bounds and is the clipped geometric sequence; MultiStep returns the value belonging to the interval that contains the current update/epoch, and rejects intervals other than 1.", "quantifier": "all parameters and all epoch/update numbers", "why_tests_cant": "unbounded epochs and parameters", "anchors": ["brainstorm/training/schedules.py: Linear, Exponential, MultiStep"]}
{"id": "C25", "title": "Steppers implement their update rules", "statement": "After n updates SGD has parameters p0 - lr*sum(g); the momentum stepper's velocity is the geometrically weighted sum of the gradients; momentum 0 equals SGD; the Nesterov stepper evaluates the gradient at the look-ahead point and its parameters follow the standard Nesterov sequence.", "quantifier": "all gradient functions, all numbers of steps, all rates", "why_tests_cant": "unbounded numbers of updates and arbitrary gradients", "anchors": ["brainstorm/training/steppers.py: SgdStepper, MomentumStepper, NesterovStepper"]}
{"id": "C26", "title": "Minibatches cover the data exactly once", "statement": "One pass of the Minibatches iterator yields every sequence exactly once (with all its fields belonging to the same sequence), in ceil(n/batch_size) batches of at most batch_size sequences, all but the last being full, for any shuffling.", "quantifier": "all n, batch sizes and permutations", "why_tests_cant": "boundary cases of n vs batch size, any permutation", "anchors": ["brainstorm/data_iterators.py: Minibatches"]}
{"id": "C27", "title": "Cutting sequences never loses a masked-in step", "statement": "When batches are cut according to a mask, every time step at which some sequence of the batch has a non-zero mask is kept and the batch length is the smallest with that property.", "quantifier": "all masks and batches", "why_tests_cant": "all masks including all-zero ones", "anchors": ["brainstorm/data_iterators.py: Minibatches, _calculate_lengths_from_mask"]}
{"id": "C28", "title": "Iterators can be iterated repeatedly", "statement": "Every epoch over a (wrapped) data iterator starts from the original data: a second pass yields the same data as the first one (up to the iterator's randomness).", "quantifier": "all wrappers (Pad, OneHot, AddGaussianNoise, Flip, RandomCrop) over Undivided / Minibatches; all data", "why_tests_cant": "needs the history of all previous passes", "anchors": ["brainstorm/data_iterators.py: Undivided, Pad, OneHot, AddGaussianNoise, Flip, RandomCrop"]}
{"id": "C29", "title": "Data augmentation produces what it promises", "statement": "OneHot rows contain a single one at the label; Pad surrounds the image with the pad value and keeps the interior; RandomCrop returns a sub-window of the requested size inside the image; Flip mirrors images and flipping twice is the identity.", "quantifier": "all image sizes, label values, pad sizes, crop offsets", "why_tests_cant": "all sizes, including pad size 0 and out-of-range labels", "anchors": ["brainstorm/data_iterators.py: OneHot, Pad, RandomCrop, Flip"]}
{"id": "C30", "title": "Reported losses and scores do not depend on the batch size", "statement": "The aggregated score or loss over a data set split into minibatches equals the score computed on the whole data set at once.", "quantifier": "all splits into batches, all per-sample scores, all masks", "why_tests_cant": "all partitions of the data", "anchors": ["brainstorm/scorers.py: gather_losses_and_scores, aggregate_losses_and_scores, Scorer.aggregate, Accuracy, Hamming, MeanSquaredError", "brainstorm/layers/loss_layer.py"]}
{"id": "C31", "title": "extract returns the features of all data in order", "statement": "`extract` returns for every requested buffer an array holding, at the positions of each batch, the buffer values of that batch: all batches, in order, nothing overwritten.", "quantifier": "all numbers and sizes of batches, all lists of buffer names", "why_tests_cant": "all batch splits; duplicate names", "anchors": ["brainstorm/tools.py: extract"]}
{"id": "C32", "title": "Splitting and shuffling keep inputs and targets together", "statement": "shuffle_data applies one and the same permutation to all arrays; splitting puts every sequence in exactly one of the parts.", "quantifier": "all data sets, permutations and split points", "why_tests_cant": "all permutations", "anchors": ["brainstorm/tools.py: shuffle_data, split"]}
{"id": "C33", "title": "Initialisation with a seed is reproducible", "statement": "`net.initialize(..., seed=s)` always produces the same parameters, whatever random numbers have been drawn before.", "quantifier": "all networks, initializers (including nested ones), seeds and prior histories of the random generators", "why_tests_cant": "hidden generator state depends on the whole process history", "anchors": ["brainstorm/structure/network.py: Network.initialize", "brainstorm/initializers.py: evaluate_initializer, SparseInputs, SparseOutputs, LstmOptInit", "brainstorm/randomness.py: RandomState, Seedable"]}
{"id": "C34", "title": "Sparse initializers create the requested number of connections", "statement": "SparseInputs(sub, k) yields exactly k potentially non-zero weights for each unit (column), all others being zero; too many connections are rejected. SparseOutputs likewise per row.", "quantifier": "all shapes, k and random choices", "why_tests_cant": "all random choices", "anchors": ["brainstorm/initializers.py: SparseInputs, SparseOutputs"]}
{"id": "C35", "title": "Descriptions can be turned back into equal objects", "statement": "create_from_description(get_description(x)) behaves like x: described fields keep their value, omitted ones get their default, nesting is preserved; describing the result again yields the same description.", "quantifier": "all object trees (any class with any default / undescribed sets)", "why_tests_cant": "all nested object graphs", "anchors": ["brainstorm/describable.py: Describable, get_description, create_from_description", "brainstorm/initializers.py: Uniform"]}
{"id": "C36", "title": "A saved network can be loaded with the same parameters", "statement": "Loading a network saved with save_as_hdf5 succeeds and yields a network with the same architecture, modifiers and parameter values.", "quantifier": "all networks, initialised or not, with any initializers and modifiers", "why_tests_cant": "all combinations of initializers and life-cycle stages", "anchors": ["brainstorm/structure/network.py: Network.__describe__, Network.__new_from_description__, Network.save_as_hdf5, Network.from_hdf5"]}
{"id": "C37", "title": "Value modifiers enforce their constraint", "statement": "After ClipValues all values are within the bounds and values within are unchanged; after ConstrainL2Norm every row has norm at most the limit, rows within it unchanged and directions preserved; MaskValues zeroes exactly the masked entries; FreezeValues keeps the first-seen values; L1/L2Decay add the (sub)gradient of the penalty.", "quantifier": "all arrays and limits", "why_tests_cant": "all real values", "anchors": ["brainstorm/value_modifiers.py"]}
{"id": "C38", "title": "Activation derivatives are exact", "statement": "For every activation function (linear, tanh, sigmoid, rel, el) the backward pass multiplies by the derivative of the forward function at every point of differentiability, although it is computed from the output only; sigmoid has values in (0,1) and its two numerically stable branches agree.", "quantifier": "all real inputs", "why_tests_cant": "continuum of inputs; finite-difference tests are approximate", "anchors": ["brainstorm/handlers/numpy_handler.py: tanh_deriv, sigmoid, sigmoid_deriv, rel_deriv, el, el_deriv", "brainstorm/handlers/_cpuop.pyx"]}
{"id": "C39", "title": "Softmax yields a probability distribution", "statement": "Softmax outputs are positive, sum to one for each row, preserve the order of the inputs, and are unchanged when a constant is added to the inputs; the implementation's max-subtraction does not change the result.", "quantifier": "all real rows of any positive length", "why_tests_cant": "continuum of inputs", "anchors": ["brainstorm/handlers/numpy_handler.py: softmax_m"]}
{"id": "C40", "title": "Gradients of the cross-entropy layers", "statement": "The deltas computed by SoftmaxCE, SigmoidCE and BinomialCrossEntropy are the derivatives of the computed loss with respect to the inputs.", "quantifier": "all inputs and admissible targets", "why_tests_cant": "continuum; the clipping of probabilities is only reached at extreme inputs", "anchors": ["brainstorm/layers/softmax_ce_layer.py", "brainstorm/layers/sigmoid_ce_layer.py", "brainstorm/layers/binomial_cross_entropy_layer.py"]}
{"id": "C41", "title": "Gradients of the feed-forward layers", "statement": "For FullyConnected, Highway, Merge, Mask, NoOp, Elementwise, SquaredDifference, SquaredError, L1/L2Decay and Loss the backward pass adds to input_deltas and gradients exactly the derivatives (along any differentiable change of inputs and parameters) of the forward pass weighted with the output_deltas.", "quantifier": "all sizes, inputs, parameters, deltas; all directions", "why_tests_cant": "continuum of inputs and directions; finite-difference tests are approximate and only sample", "anchors": ["brainstorm/layers/fully_connected_layer.py", "brainstorm/layers/highway_layer.py", "brainstorm/layers/merge_layer.py", "brainstorm/layers/mask_layer.py", "brainstorm/layers/squared_difference_layer.py", "brainstorm/layers/squared_error_layer.py", "brainstorm/layers/l1_decay.py", "brainstorm/layers/l2_decay.py", "brainstorm/layers/loss_layer.py"]}
{"id": "C42", "title": "Back-propagation through time of the Recurrent layer", "statement": "The Recurrent layer's backward pass computes the exact derivatives with respect to inputs, weights, recurrent weights and bias for sequences of any length, also when a context is given.", "quantifier": "all T, B, sizes, weights, contexts", "why_tests_cant": "unbounded sequence length", "anchors": ["brainstorm/layers/recurrent_layer.py"]}
{"id": "C43", "title": "Back-propagation through time of the LSTM layer", "statement": "The LSTM layer's backward pass computes the exact derivatives with respect to inputs and all parameters for sequences of any length, also when a context is given.", "quantifier": "all T, B, sizes, weights, contexts", "why_tests_cant": "unbounded sequence length; contexts are never used in the layer tests", "anchors": ["brainstorm/layers/lstm_layer.py"]}
{"id": "C44", "title": "Clockwork units only change when their clock ticks", "statement": "In a Clockwork layer unit j changes its output at step t>0 only if t is a multiple of its timing value, otherwise it keeps its previous output; the backward pass computes the exact derivatives.", "quantifier": "all sequences and timings", "why_tests_cant": "unbounded sequences", "anchors": ["brainstorm/layers/clockwork_layer.py"]}
{"id": "C45", "title": "Convolution computes a convolution", "statement": "Convolution2D's output at each position is the weighted sum of the padded input window plus bias, with output height and width (in + 2*padding - kernel)//stride + 1, and the backward pass is its exact adjoint (weights, bias, inputs).", "quantifier": "all image sizes, kernels, strides, paddings, channel counts", "why_tests_cant": "index arithmetic over all shape combinations", "anchors": ["brainstorm/handlers/numpy_handler.py: conv2d_forward_batch, conv2d_backward_batch", "brainstorm/handlers/_cpuop.pyx: im2col, col2im", "brainstorm/layers/convolution_layer_2d.py"]}
{"id": "C46", "title": "Pooling computes maximum / average and routes gradients to the right places", "statement": "Max pooling outputs the maximum of the window restricted to the image and the backward pass adds the delta to the position of that maximum only; average pooling outputs the mean and its backward pass is the exact adjoint.", "quantifier": "all image sizes, kernels, strides, paddings", "why_tests_cant": "index arithmetic over all shape combinations", "anchors": ["brainstorm/handlers/numpy_handler.py: maxpool2d_forward_batch, maxpool2d_backward_batch, avgpool2d_forward_batch, avgpool2d_backward_batch", "brainstorm/handlers/_cpuop.pyx"]}
{"id": "C47", "title": "Dropout's backward pass is the derivative of its forward pass", "statement": "In training the deltas passed through a Dropout layer are the derivative of the outputs of the preceding forward pass with the same mask; with training_pass=False the layer is the identity.", "quantifier": "all drop probabilities in [0,1), masks, inputs", "why_tests_cant": "all probabilities and masks", "anchors": ["brainstorm/layers/dropout_layer.py"]}
{"id": "C48", "title": "Batch normalisation normalises and differentiates correctly", "statement": "In training each feature of x_hat has mean 0 and variance v/(v+eps); the backward pass computes the exact derivatives with respect to inputs, gamma and beta; the running statistics are exponential moving averages.", "quantifier": "all batches (m >= 1), features, eps > 0", "why_tests_cant": "continuum of inputs", "anchors": ["brainstorm/layers/batch_normalization_layer.py"]}
{"id": "C49", "title": "Back-propagation through the whole network", "statement": "After forward_pass and backward_pass `gradients` holds the exact derivative of the total loss with respect to every parameter, for every acyclic network of layers each of which back-propagates correctly; in particular outputs feeding several layers receive the sum of all deltas.", "quantifier": "all networks (DAGs) built of correct layers", "why_tests_cant": "all graph shapes", "anchors": ["brainstorm/structure/network.py: Network.backward_pass", "brainstorm/structure/layout.py: get_backward_connection", "brainstorm/structure/buffers.py: BufferManager.clear_backward_buffers"]}
{"id": "C50", "title": "Repeating a backward pass does not accumulate", "statement": "Calling backward_pass repeatedly (or after any previous use of the network) yields the same gradients as the first call: deltas and gradients of former passes never leak in.", "quantifier": "every network state", "why_tests_cant": "depends on stale buffer contents", "anchors": ["brainstorm/structure/network.py: Network.backward_pass", "brainstorm/structure/buffers.py: BufferManager.clear_backward_buffers"]}
{"id": "C51", "title": "Random generators can be reset", "statement": "After `reset()` a RandomState produces the same numbers as after seeding, whatever was drawn in between; equal seeds yield equal sequences; derived generators / seeds are reproducible and re-seeding one does not influence the others.", "quantifier": "all draw sequences", "why_tests_cant": "arbitrary histories", "anchors": ["brainstorm/randomness.py: RandomState, Seedable"]}
{"id": "C52", "title": "Paths are normalised like directory paths", "statement": "get_normalized_path joins its arguments with dots and each '..' cancels one preceding component; going above the root is an error; normalising a normalised path changes nothing.", "quantifier": "all path components", "why_tests_cant": "all strings of components", "anchors": ["brainstorm/utils.py: get_normalized_path"]}
{"id": "C53", "title": "Nested containers keep their elements", "statement": "convert_to_nested_indices numbers the leaves of a nested list 0..n-1 keeping the nesting; flatten lists the leaves in order; flattening an index structure enumerates 0..n-1.", "quantifier": "all nested lists", "why_tests_cant": "unbounded nesting", "anchors": ["brainstorm/utils.py: flatten, convert_to_nested_indices, flatten_keys, get_by_path"]}
{"id": "C54", "title": "Buffer structures are validated and matched against templates", "statement": "A BufferStructure is accepted exactly if it starts with ('T','B') / ('B') when it scales, has at least one integer feature dimension and a non-negative context only with time; a template matches exactly the structures of its scaling type and dimensionality; a combined structure has the sum of the sizes.", "quantifier": "all shapes", "why_tests_cant": "all shape tuples", "anchors": ["brainstorm/structure/buffer_structure.py: BufferStructure.validate, StructureTemplate.validate, StructureTemplate.matches, combine_buffer_structures"]}
{"id": "C55", "title": "The total loss is the weighted sum of the losses", "statement": "get_loss_values reports one value per loss layer; 'total_loss' is their sum, with a single loss layer only 'total_loss' is reported.", "quantifier": "all networks with any number of loss layers", "why_tests_cant": "any number of losses", "anchors": ["brainstorm/structure/network.py: Network.get_loss_values", "brainstorm/layers/loss_layer.py"]}
{"id": "C56", "title": "Threshold and NaN stoppers", "statement": "StopAfterThresholdReached stops exactly when some value logged so far is at least (max) / at most (min) the threshold; StopOnNan stops exactly when a monitored log contains a non-finite value, or the parameters or the rolling training loss do and are checked.", "quantifier": "all logs", "why_tests_cant": "all logged values", "anchors": ["brainstorm/hooks.py: StopAfterThresholdReached, StopOnNan"]}
{"id": "C57", "title": "Monitoring hooks work for all layers", "statement": "MonitorLayerDeltas / MonitorLayerParameters / MonitorLayerGradients / MonitorLayerInOuts report minimum, average and maximum of every array of every layer they are used with.", "quantifier": "all layers", "why_tests_cant": "all layers with or without inputs and parameters", "anchors": ["brainstorm/hooks.py: MonitorLayerDeltas, MonitorLayerParameters, MonitorLayerGradients"]}
{"id": "C58", "title": "Back-propagation through time of the ClockworkLstm layer", "statement": "In the ClockworkLstm layer a unit whose clock does not tick keeps its cell and its output; the backward pass computes the exact derivatives with respect to inputs and all parameters for sequences of any length, any timings, also when a context is given.", "quantifier": "all T, B, sizes, weights, timings, contexts", "why_tests_cant": "unbounded sequence length and all timings; contexts are never used in the layer tests", "anchors": ["brainstorm/layers/clockwork_lstm_layer.py"]}
{"id": "C59", "title": "LstmOptInit fills each block with its own initializer", "statement": "LstmOptInit fills the four quarters of the rows with what block_input, input_gate, forget_gate and output_gate yield for a quarter of the shape, and rejects a number of rows that is not divisible by 4.", "quantifier": "all shapes, seeds and (nested) initializers", "why_tests_cant": "all combinations of nested initializers and shapes", "anchors": ["brainstorm/initializers.py: LstmOptInit"]}
{"id": "C60", "title": "The GPU handler computes what the CPU handler computes", "statement": "For the same arguments each CUDA kernel of the GPU handler writes the values that the CPU handler's operation computes, whatever the order in which the threads run, and no two threads of a kernel write the same cell except by atomic additions.", "quantifier": "all sizes, strides, paddings, numbers of channels and images, all array contents, all interleavings of the threads", "why_tests_cant": "the order of threads varies between runs and cards; the handler tests use a few small shapes, so launches with more rows than threads or positions beyond float32 never occur", "anchors": ["brainstorm/handlers/pycuda_handler.py", "brainstorm/handlers/numpy_handler.py", "brainstorm/handlers/_cpuop.pyx"]}
{"id": "C61", "title": "The passes of an accepted network only use arrays of fitting shapes", "statement": "If an architecture is accepted and its layers can be created, then every handler operation, reshape, index, unpacking and division in the forward and backward pass of every layer gets arguments of fitting shapes and kinds, so that neither pass raises an exception because of them.", "quantifier": "all architectures, all layer classes and keyword arguments, all numbers of time steps and sequences", "why_tests_cant": "each layer is tested with a handful of shapes; combinations of feature dimensions, sizes, activation names and data lengths are unbounded", "anchors": ["brainstorm/structure/architecture.py", "brainstorm/layers/base_layer.py", "brainstorm/layers/*.py", "brainstorm/handlers/debug_handler.py"]}
{"id": "C62", "title": "The structures and connections of a created network follow from its architecture", "statement": "When the layers of an architecture can be created, every buffer structure of every layer is valid; every connection of the architecture leads from an existing buffer of one layer to an existing input of a later layer, and the layers get no other connections; the structure of an input joins those of its sources (same scaling, same feature dimensions but the last, whose sizes are added); and the result does not depend on the order in which Python enumerates the sets and dictionaries involved.", "quantifier": "all architectures, all layer classes and keyword arguments, all enumeration orders of sets", "why_tests_cant": "the enumeration order of sets of strings changes from run to run with hash randomisation, and tests build only a few small networks", "anchors": ["brainstorm/structure/architecture.py", "brainstorm/structure/buffer_structure.py", "brainstorm/layers/base_layer.py", "brainstorm/layers/*.py"]}
{"id": "C63", "title": "The memory of a network created from an architecture", "statement": "When the layers of an architecture can be created and their layout succeeds, every buffer of every layer is an array of the shape its structure says, for all numbers of time steps and sequences; different outputs, parameters, internals, output deltas and gradients share no memory; the features of an input are exactly those of the buffers connected to it, one after the other, and the deltas of the input are the deltas of these buffers at the same positions; the parameters of all layers together make up the parameter vector of the network, and gradients have the same places in the gradient vector.", "quantifier": "all architectures, layer classes and keyword arguments with non-negative dimensions, all data sizes", "why_tests_cant": "tests check the layouts of a few hand-written layers, not of networks created from architectures", "anchors": ["brainstorm/structure/architecture.py", "brainstorm/structure/layout.py", "brainstorm/structure/buffers.py", "brainstorm/structure/buffer_structure.py", "brainstorm/layers/base_layer.py", "brainstorm/layers/*.py"]}
{"id": "C64", "title": "What layers write to flattened buffers arrives", "statement": "Layers flatten their buffers with reshape before they read and write them. The flattened array always has the content of the buffer in row-major order, and whatever is written to it arrives in the buffer, for the buffers of every network that can be created: reshape never has to make a copy.", "quantifier": "all architectures with positive dimensions, all buffers and time slices of buffers, all data sizes, all contents of the memory", "why_tests_cant": "whether numpy returns a view or a copy depends on the strides, that is on which other buffers share the hub; layer tests run single layers whose buffers are alone", "anchors": ["brainstorm/utils.py", "brainstorm/structure/buffer_structure.py", "brainstorm/structure/layout.py", "brainstorm/layers/batch_normalization_layer.py", "brainstorm/layers/softmax_ce_layer.py", "brainstorm/layers/mask_layer.py", "brainstorm/handlers/numpy_handler.py"]}
{"id": "C65", "title": "Buffers stay reachable by name, through the same view objects", "statement": "The nested view objects of a network give each buffer under its layer, category and name, by attribute, by key and by dotted path, and after every resize they give the views of the new memory. Resizing updates the existing objects: a view of a layer or of a non-empty category that someone holds stays the current one. No layer name breaks this.", "quantifier": "all trees of views, all numbers and sizes of resizes, all networks created from an architecture", "why_tests_cant": "the tests of buffer views use a few names and never adjust views of a network several times; layer names that collide with methods of the view class are not tried", "anchors": ["brainstorm/structure/buffer_views.py", "brainstorm/structure/buffers.py", "brainstorm/structure/network.py"]}
{"id": "C66", "title": "The gradients in the memory of a created network are the derivatives of its loss", "statement": "For a network created from an architecture, run in the memory its layout gives it: after forward_pass, the outputs of each layer are those its formula gives for its inputs and parameters, each taken from the buffer with its name; after forward_pass and backward_pass, the element of `gradients` belonging to an element of a parameter is the derivative of the total loss with respect to that element, and the output delta of an element of the data is the derivative with respect to it, unless the data are used as targets or mask. Buffers sharing memory, context slices and concatenated inputs do not disturb this. The network may use every layer type but DeltasScaling; layers that flatten features may have one feature dimension; targets and masks come from the input layer; inputs come from outputs whose deltas the source layer uses; no layer is at a kink or clips, dropout probability is 0.", "quantifier": "all such architectures, all numbers of time steps and sequences, all contents of the memory", "why_tests_cant": "the gradient tests check single layers with their own buffers, or small networks at a few points with finite differences", "anchors": ["brainstorm/structure/network.py: Network.forward_pass, backward_pass", "brainstorm/structure/layout.py: create_layout", "brainstorm/structure/buffers.py: BufferManager", "brainstorm/layers"]}
{"id": "C67", "title": "Training steps of a created network follow the gradient of the batch's loss", "statement": "For a network created from an architecture and trained on a sequence of batches (of any sizes): every update of SgdStepper changes each element of each parameter, at its place in the memory, by minus the learning rate times the derivative of the batch's total loss with respect to that element; MomentumStepper and NesterovStepper follow their velocity rules with the derivative at the current or the look-ahead parameters; parameters that get no gradient (timing of clockwork layers) keep their values; mu and sigma of BatchNorm layers become decay times the old value plus (1 - decay) times the negative mean, or the deviation, of the layer's inputs. The losses and the parameters after training depend on the data, the initial parameters and the random masks only, not on what else was in the memory. Same assumptions as C66; no gradient or weight modifiers.", "quantifier": "all such architectures, all sequences of batches, all rates and momenta at each update, all initial parameters and contents of the memory", "why_tests_cant": "the stepper tests use a mock network or check that the loss goes down on a toy problem", "anchors": ["brainstorm/training/steppers.py: SgdStepper.run, MomentumStepper.run, NesterovStepper.run", "brainstorm/training/trainer.py: Trainer.train", "brainstorm/layers/batch_normalization_layer.py: forward_pass", "brainstorm/structure/network.py: Network.forward_pass, backward_pass"]}
{"id": "C68", "title": "Training a created network with modifiers keeps their constraints", "statement": "For a network created from an architecture: apply_weight_modifiers and apply_gradient_modifiers change the views for which modifiers are installed, in the order of their lists, and nothing else. During training the gradients of a batch are modified before the stepper uses them and the weights after it: with L1Decay or L2Decay the update follows the derivative of the loss plus the penalty; weights whose gradients are masked out never change; after every update the weights of a view whose last modifier is ClipValues are within the bounds, masked weights are 0, rows under ConstrainL2Norm have at most the given norm, and views under FreezeValues have the values they had before training (or the given ones).", "quantifier": "all such architectures, all installed modifiers, all sequences of batches, all steppers, rates and momenta, all initial parameters", "why_tests_cant": "the tests call the modifiers on single arrays, outside of training", "anchors": ["brainstorm/structure/network.py: Network.apply_weight_modifiers, apply_gradient_modifiers, backward_pass", "brainstorm/value_modifiers.py", "brainstorm/training/trainer.py: Trainer.train", "brainstorm/training/steppers.py"]}
{"id": "C69", "title": "Evaluating a created network computes its predictions and does not influence training", "statement": "For a network created from an architecture: after an evaluation pass (training_pass=False) every layer's outputs are its formula applied to its inputs and parameters, where Dropout copies its inputs and BatchNorm uses its moving averages; predictions of SquaredError, SigmoidCE and SoftmaxCE layers are the inputs, their sigmoids and the softmax probabilities. Parameters, gradients, deltas and the data keep their values. Outputs and losses depend on the data and the parameters only, not on what else is in the memory nor on dropout masks; without Dropout and BatchNorm layers they are those of training passes. Evaluations between the updates of a training (monitoring hooks), on any data of any size, change neither the parameters nor the velocities nor the state of the modifiers it ends with.", "quantifier": "all such architectures, all batches and parameters, all contents of the memory; all interleavings of updates and evaluations, all steppers and modifiers", "why_tests_cant": "the hook tests use mock networks; the layer tests run single layers, mostly with training_pass=True", "anchors": ["brainstorm/structure/network.py: Network.forward_pass", "brainstorm/tools.py: evaluate", "brainstorm/hooks.py: MonitorLoss, MonitorScores", "brainstorm/layers/dropout_layer.py: forward_pass", "brainstorm/layers/batch_normalization_layer.py: forward_pass", "brainstorm/training/trainer.py: Trainer.train"]}
{"id": "C70", "title": "A created network processes each sequence of a batch on its own and in the order of time", "statement": "For a network created from an architecture: in an evaluation pass the outputs of every layer for a sequence at a time step depend on this sequence's data up to this time step, its initial context and the parameters only; neither on the other sequences, its position in the batch and the batch size, nor on later time steps. If the inputs of all Loss layers have a time axis, then the loss of a batch is the mean of the losses of its sequences processed alone; without Dropout and BatchNorm the same holds of the training loss and of its gradient. Hence the loss reported for a data set, and every score whose targets and outputs have a time axis, is the same for every grouping of the sequences into minibatches and every order.", "quantifier": "all such architectures, all batches, parameters, contents of the memory; all data sets and groupings into nonempty minibatches", "why_tests_cant": "the layer tests run one batch each and compare implementations or finite differences; none compares batches of different composition", "anchors": ["brainstorm/structure/network.py: Network.forward_pass, provide_external_data", "brainstorm/data_iterators.py: Minibatches", "brainstorm/scorers.py: gather_losses_and_scores, aggregate_losses_and_scores, Hamming, Accuracy", "brainstorm/layers/loss_layer.py: forward_pass", "brainstorm/layers/lstm_layer.py: forward_pass", "brainstorm/layers/batch_normalization_layer.py: forward_pass"]}
{"id": "C71", "title": "A spec line builds the network it describes", "statement": "create_net_from_spec turns a line into a network: every capital letter with its arguments becomes one layer of the documented type with the documented arguments and defaults; the layers form a chain from the Input layer over a linear projection of the output size to the output layer of the task (SoftmaxCE, SigmoidCE, SquaredError), which receives the targets and feeds the (possibly masked) Loss. Whitespace is ignored; data_name names the input data; use_conv decides about the kind of the projection layer; the documentation's examples are valid. Whatever the order in which the set of connected layers is iterated, the network is created, and training it computes gradients as in C66-C70.", "quantifier": "all lines of the documented form, input shapes, output sizes, the three tasks, names of targets and mask, iteration orders", "why_tests_cant": "No test calls create_net_from_spec or get_in_out_layers, only examples use them with a few fixed lines. Lines, shapes and iteration orders of the layer set are unbounded.", "anchors": ["brainstorm/tools.py: create_net_from_spec, create_layer, get_in_out_layers", "brainstorm/structure/architecture.py: generate_architecture, instantiate_layers_from_architecture"]}
{"id": "C72", "title": "A network has a memory layout exactly if its outputs can be put side by side", "statement": "For every architecture that can be instantiated and whose connections start at outputs of layers, create_layout succeeds exactly if all outputs of the layers can be put in an order in which, for every input, the outputs connected to it are neighbours; otherwise it raises the NetworkValidationError 'Failed to lay out buffers' and no other exception. In particular a layout exists if no input has more than one source (as for the networks of create_net_from_spec), and none exists if three outputs go pairwise to common inputs.", "quantifier": "all architectures, layer types, shapes and wirings whose connections start at outputs", "why_tests_cant": "Tests lay out a few small networks; that the search neither misses a layout nor fails with another error for any wiring needs all wirings, and the number of orders grows factorially.", "anchors": ["brainstorm/structure/layout.py: create_layout, Hub.create, Hub.permute_rows, group_into_hubs", "brainstorm/structure/architecture.py: instantiate_layers_from_architecture"]}
{"id": "C73", "title": "Training a created network with the Trainer is the training that its data, stepper, modifiers and schedules describe", "statement": "When a new Trainer trains a network created from an architecture, with SgdStepper, MomentumStepper or NesterovStepper, any installed modifiers, iterators that give m > 0 batches per epoch, and hooks that evaluate the network (MonitorLoss), set attributes of the stepper by schedules (ModifyStepperAttribute) or request a stop at the end of an epoch, then after e epochs exactly e*m updates were done and parameters, velocities and modifiers are those of the plain sequence of these updates on the batches of the iterators, where update i uses the learning rate and the momentum that the schedules gave at their last call before it. The logged rolling_training loss of an epoch is the batch-size-weighted average of the losses of its batches at the parameters where the stepper evaluates them, and MonitorLoss logs the weighted average of the evaluation losses at the parameters after the given number of updates. In particular, training with SgdStepper and StopAfterEpoch(n) does n*m updates, each changing every parameter by minus the scheduled learning rate times the derivative of the loss of its batch.", "quantifier": "all architectures with parameters whose layers are modelled, parameters, batches, modifiers, schedules, intervals, numbers of epochs and combinations of such hooks", "why_tests_cant": "Tests train small networks for a few updates and look at single components; that loop, iterators, steppers, modifiers, memory, hooks and logs together give this sequence for every network, data and schedule has infinitely many instances, and interference (e.g. by monitoring) may show only for some of them.", "anchors": ["brainstorm/training/trainer.py: Trainer.train, Trainer._emit_hooks", "brainstorm/training/steppers.py: SgdStepper, MomentumStepper, NesterovStepper", "brainstorm/hooks.py: MonitorLoss, ModifyStepperAttribute, StopAfterEpoch", "brainstorm/training/schedules.py: Exponential", "brainstorm/scorers.py: gather_losses_and_scores, aggregate_losses_and_scores"]}
{"id": "C74", "title": "The progress bar shows every epoch completely and does not influence training", "statement": "While a trainer trains with the ProgressBar hook, the text printed in an epoch is a bar that grows with the updates to its full length at the last update, followed by the elapsed time; the hook raises no exception and never requests a stop, so training with it does what training without it does.", "quantifier": "all numbers of batches per epoch, numbers of epochs, other hooks, and positions of the hook", "why_tests_cant": "The project has no test of ProgressBar; examples try a few lengths in a new trainer, while the text depends on the division of every possible length, and the generator's state survives from one call of train to the next.", "anchors": ["brainstorm/hooks.py: ProgressBar", "brainstorm/utils.py: progress_bar", "brainstorm/training/trainer.py: Trainer.train, Trainer._call_hook"]}
{"id": "C75", "title": "extract_and_save writes what extract returns", "statement": "`extract_and_save` writes for every requested buffer one dataset, in the order of the names, holding at the positions of each batch the buffer values of that batch: all batches, in order, nothing overwritten, the same as `extract` returns for these batches; a buffer that is named twice is refused.", "quantifier": "all numbers, sizes and lengths of batches, all lists of buffer names", "why_tests_cant": "The project has no test of extract_and_save; an example fixes one split into batches, while the file grows with every possible one.", "anchors": ["brainstorm/tools.py: extract_and_save", "brainstorm/tools.py: extract"]}
{"id": "C76", "title": "A SIGQUIT signal stops the training at the next call of StopOnSigQuit", "statement": "While a trainer trains with StopOnSigQuit hooks, each of them requests a stop at exactly those of its calls before which a SIGQUIT arrived in this training, and logs the message then; so training ends at the next update or epoch whose number is a multiple of the hook's interval, and signals of earlier trainings have no effect.", "quantifier": "all arrival times of signals, timescales, intervals, other hooks and their positions, batches, numbers of epochs, and states left by earlier trainings", "why_tests_cant": "The project has no test of StopOnSigQuit; a test sends one signal at one moment, while the claim is about every moment and every combination with other hooks.", "anchors": ["brainstorm/hooks.py: StopOnSigQuit", "brainstorm/training/trainer.py: Trainer.train, Trainer._emit_hooks, Trainer._call_hook"]}
{"id": "C77", "title": "SaveLogs' file holds the trainer's logs and saving does not disturb the training", "statement": "After each call of the SaveLogs hook its file holds exactly the values that are in the trainer's logs at that time, at the same paths and in the same order; so after a training it holds what was logged before the hook's last call. The hook requests no stop and raises no exception, so stops requested by other hooks end the training regularly and the training can be continued.", "quantifier": "all nested logs, hooks before and after SaveLogs, timescales, intervals, batches, numbers of epochs, logs left by earlier trainings", "why_tests_cant": "The project has no test of SaveLogs; the logs' nesting, the order of hooks and the kind of stop vary without bound.", "anchors": ["brainstorm/hooks.py: SaveLogs, StopOnSigQuit", "brainstorm/training/trainer.py: Trainer._call_hook, Trainer._add_log, Trainer.train"]}
{"id": "C78", "title": "Networks from spec lines are completely initialized, each parameter by the right initializer", "statement": "The initialization that create_net_from_spec performs fills every parameter view of the network exactly once: views with two or more dimensions of a layer with an activation by DenseSqrtFanInOut with the scale of that activation, all other views (biases, layers without activation) with Gaussian noise. It raises no error unless a layer's activation has no scale, and every layer that a spec line creates (and the projection layer) is created with an activation that has one, or with none. The values of DenseSqrtFanInOut lie in the documented interval.", "quantifier": "all networks with distinct ordinary names, all parameter shapes and activations, all spec lines, tasks and output shapes", "why_tests_cant": "Tests initialize a few networks; the rule depends on the interplay of references, default and fallback for every combination of layers, and on the shape of every view.", "anchors": ["brainstorm/tools.py: create_net_from_spec, create_layer, get_in_out_layers", "brainstorm/structure/network.py: Network.initialize", "brainstorm/initializers.py: DenseSqrtFanInOut, Gaussian, evaluate_initializer", "brainstorm/structure/view_references.py: resolve_references"]}
