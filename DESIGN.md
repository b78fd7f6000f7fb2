# Formal model of deepworks: design

The model lives in `rocq/theories` (logical name `Verif`). It is a set of total, computable
Gallina functions that follow the C++ function by function; each definition cites the file and
lines it models and says where it simplifies. Proofs are kept out of the model files.

| files | content |
|---|---|
| `Base`, `BaseFacts`, `Sums`, `Deriv` | outcomes (`Ok`/`Throw`/`UB`), list and loop combinators, finite sums, derivative lemmas |
| `M_*.v` | the model (definitions only) |
| `S_*.v` | small independent specifications used in statements |
| `P_*.v` | proofs |
| `Prop_*.v` | the property theorems, each with an `Example ..._nonvacuous` that meets its hypotheses on a concrete case, and `Print Assumptions` |

| part of the code | model | specification | theorems |
|---|---|---|---|
| `src/runtime/tensor.cpp`, `initializers.cpp` | `M_Tensor`, `M_Init` | `S_Tensor`, `S_Heap` | `Prop_Tensor` (C01-C05), `Prop_Init` (C50) |
| im2col, col2im, layouts (`kernels.cpp`), output sizes (`nn.cpp`) | `M_Im2col` | `S_Im2col` | `Prop_Im2col` (C06-C08, C14) |
| arithmetic kernels (`kernels.cpp`) | `M_Kernels`, `M_Conv` | `S_Act`, `S_Stats`, `S_BN`, `S_Partial` | `Prop_Conv` (C09, C11-C13), `Prop_Layers` (C15-C24, C51) |
| OpenMP loops | `M_Par` | (in `M_Par`) | `Prop_Par` (C10, C51) |
| CPU layers (`src/runtime/cpu/layers`) | `M_Layers` | `S_Grad` | `Prop_Layers`, `Prop_Conv` |
| `loss.cpp`, `metrics.cpp` | `M_Loss` | `S_Loss` | `Prop_Loss` (C25, C26) |
| `optimizer.cpp` | `M_Optim` | `S_Optim` | `Prop_Optim` (C27-C29) |
| `dataloader.cpp` | `M_DataLoader` | `S_DataLoader` | `Prop_DataLoader` (C30-C32) |
| layer API (`nn.cpp`, `base_op.hpp`, `layer_info.hpp`, `call.cpp`, `placeholder.cpp`, `parameter.cpp`, `cpulayer.cpp`) | `M_Nn` | `S_Nn` | `Prop_Nn` (C48, C51) |
| `graphbuilder.cpp` | `M_Graph` | `S_Graph` | `Prop_Graph` (C33, C34) |
| `model.cpp`, `layer.cpp` | `M_Model` | `S_Graph` | `Prop_Model` (C35, C36) |
| `cpubackend.cpp`, run-time part of `model.cpp` | `M_Backend` | `S_Run`, `S_Fit`, `S_Grad` | `Prop_Run` (C37, C34, C40, C41), `Prop_Bwd` (C38), `Prop_Bwd2` (C39) |
| `serialization.cpp` | `M_Serial` | `S_Serial` | `Prop_Serial` (C42-C46) |
| `Model::cfg`, `Model::Build` | `M_Model` | `S_Build` | `Prop_Build` (C47) |
| `image_reader.cpp` | `M_Image` | `S_Image` | `Prop_Image` (C49) |
| integers kept in `float` | `M_Float` | `S_Float` | `Prop_Float` (C52) |
| training calls in any order (`optimizer.cpp`, `loss.cpp`, `model.cpp` together) | `M_Train` | `S_Train`, `S_Primed` | `Prop_Train` (C53) |
| building a model from the API (`nn.cpp` to `compile`) | `M_Nn`, `M_Model`, `M_Train` | `S_Plain` | `Prop_Plain` (C54) |
| one training iteration | `M_Train` | `S_Desc` | `Prop_Desc` (C55) |
| evaluation mode | `M_Backend` | `S_Eval` | `Prop_Eval` (C56) |
| `samples/*/main.cpp`, training mode | `M_Sample` | `S_Sample`, `S_Descent` | `Prop_Sample` (C57), `Prop_Descent` (C61) |
| sessions of a user | `M_Train` | `S_Session` | `Prop_Session` (C58) |
| `save`/`load` of whole models, `samples/*/main.cpp`, test mode | `M_Saved` | `S_Saved`, `S_Saved2`, `S_Saved3` | `Prop_Saved`, `Prop_Saved2`, `Prop_Saved3` (C59) |
| `samples/*/utility.cpp` and the data preparation of the samples | `M_Data` | `S_Data` | `Prop_Data`, `Prop_Files` (C60) |
| `save_dot`, `operator<<` | `M_Dot` | `S_Dot` | `Prop_Dot` (C62) |
| `tests/unit/kernels_reference.cpp` 1-408, 503-652 | `M_Ref` | `S_Ref` | `Prop_Ref` (C63) |
| forward passes in rounded arithmetic (`kernels.cpp`, layers) | `M_Round` | `S_Round` | `Prop_Round` (C64) |
| `samples/*/main.cpp`, arguments, files, both modes | `M_Main` | `S_Main` | `Prop_Main` (C65) |
| several models over common layers (`model.cpp`, `cpubackend.cpp`, `optimizer.cpp`) | `M_Models` | `S_Models` | `Prop_Models` (C66) |
| forward passes and a training step in IEEE 754 arithmetic (`kernels.cpp`, layers, `loss.cpp`, `optimizer.cpp`) | `M_Ieee` | `S_Ieee` | `Prop_Ieee` (C67) |
| SGD, SGDMomentum and Adam in IEEE 754 arithmetic (`optimizer.cpp`) | `M_IeeeOpt` | `S_IeeeOpt` | `Prop_IeeeOpt` (C70) |
| backward passes of dense networks with any activations in IEEE 754 arithmetic (`kernels.cpp`, `cpulinear.cpp`, `cpubackend.cpp`, `loss.cpp`) | `M_IeeeDense` | `S_IeeeDense` | `Prop_IeeeDense` (C71) |
| training loops of dense classifiers in IEEE 754 arithmetic (`kernels.cpp`, `cpulinear.cpp`, `cpubackend.cpp`, `loss.cpp`, `optimizer.cpp`, `samples/mnist/main.cpp:88-93`) | `M_IeeeTrain` | `S_IeeeTrain` | `Prop_IeeeTrain` (C72) |
| size of Adam's steps (`optimizer.cpp:76-115`) | `M_Optim` | `S_AdamBound`, `S_Optim` | `Prop_AdamBound` (C73) |
| training loop of one Linear layer with Softmax (`samples/*/main.cpp`, `cpulinear.cpp`, `cpusoftmax.cpp`, `loss.cpp`, `optimizer.cpp:15-31`) | `M_Regression` | `S_Regression` | `Prop_Regression` (C74) |
| 32-bit ints in sizes, windows, layers and whole models | `M_Int`, `M_IntModel` | `S_Int`, `S_IntModel` | `Prop_Int`, `Prop_IntModel` (C69) |
| layers and models given batches of another size | `M_Layers`, `M_Backend` | `S_Grad`, `S_Run` | `Prop_Batch` (C68) |

## Modelling decisions

* **Outcomes.** Every operation that can throw or has undefined behaviour returns
  `Ok v | Throw | UB`; operations on a state return `Ret s | Exc s | Bad`, so an exception carries
  the state it leaves behind. Out-of-bounds access, null dereference, division by zero and reading
  an absent element are undefined behaviour, never a default value.
* **Scalars.** Data-movement code (tensors, im2col, layouts, serialization, data loader, graph) is
  polymorphic in the element type. Arithmetic kernels are over Coq's real numbers `R`: rounding,
  NaN, infinities and overflow of `float` are not modelled in them. C64 adds rounding (not overflow)
  for the forward passes, any rounding and any order of summation; C52 formalises
  rounding to 24 bits, nearest even, by hand over the integers (no floating-point library is used).
* **Integers.** `int`/`size_t` are unbounded `Z`/`nat`, except where the C++ depends on the width:
  products of dimensions (`int` overflow is `UB`), `size_t` comparisons (modulo 2^64), file formats.
  C69 models the layers once more with every `int` operation checked and says when the two agree.
  Division is C++ truncating division (`Z.quot`).
* **Derivatives** are the standard library's `derivable_pt_lim`.
* **External code.** Eigen expressions are modelled by their documented meaning (coefficient-wise
  formulas; `maxCoeff` returns any maximal index, chosen by an arbitrary function). ade's
  topological sort is any list that satisfies the definition of a topological order: theorems
  quantify over all of them. Iteration order of `unordered_map`/`unordered_set` is any permutation.
  The random generator, the dataset and the image decoders are arbitrary functions or streams.
* **OpenMP loops** are sets of threads whose single element accesses are interleaved arbitrarily,
  under sequential consistency. That is what C++ guarantees to programs without data races, and
  C10 proves there are none.
* **Expressions** are a store of placeholders and layer descriptions referred to by position; the
  shared pointers of the C++ become positions.
* **Backend.** A CPU layer object refers to the parameters and buffers of its description: they are
  fetched before every virtual call and stored after it. Simplifications: the tensors of the caller
  share no memory with each other, with parameters or with the model; the handles inside a Parameter
  are not replaced by the user; a layer whose forward throws has written nothing; `compile` creates
  layers before it allocates tensors.
* **Serialization.** A file is a list of bytes; writing never fails, but every prefix of a written
  file is considered (crash, full disk). Little-endian machine, 4-byte `int` and `float`. Tensors of
  one dictionary share no memory.

## What is not modelled

* Rounding, overflow and special values of `float` arithmetic outside C52 (integers in floats), C64
  (rounded forward passes), C67 (overflow, infinities and NaN in forward passes of all layers and in
  training multilayer perceptrons with SGD) and C70 (optimizer steps): the other theorems are about
  exact arithmetic.
* The C++ memory model below sequential consistency, the OpenMP run time, threads of the user.
* Eigen, ade, libpng, libjpeg, the C++ library's containers and streams beyond the behaviour stated
  in the comments; errors inside libpng after the header was read.
* Running out of memory, except where it is an explicit argument (`allocate`, `resize` when loading).
* Reclaiming the memory of tensors whose last handle disappears.
* Benchmarks; tests other than the plain reference kernels of `tests/unit/kernels_reference.cpp` (its
  lines 409-502 call another library and are left out); the command lines of the samples before their arguments are parsed.

## How each property is proved

| id | what is modelled | how it is proved |
|---|---|---|
| C01 | the strides loop and total | induction on the shape, mixed-radix bijection |
| C02-C05 | heap of descriptors and memory blocks, API calls as heap transformers | invariant over arbitrary call histories, frame lemmas |
| C06 | outShape with truncating division | counting window positions, case analysis |
| C07, C08 | the pointer-walking loops with bounds checks | loop invariants; adjointness by exchanging sums |
| C09, C11 | batch loop, matrix products, gradients | through C07/C08; derivative along lines |
| C10 | iterations as programs of element accesses, any schedule | disjointness, commutation, equality with the sequential loop; `C10_bit_for_bit` holds for any arithmetic, so also for floats |
| C12, C13 | pooling kernels with any choice among equal maxima | as C07/C08 plus argmax lemmas; local constancy of the argmax |
| C14 | conversion loops | mixed-radix bijection |
| C15-C19 | kernels and layers | algebra and real analysis |
| C20-C23 | batch normalisation kernels and layers with their buffers | algebra, derivative, induction over histories |
| C24 | dropout with arbitrary draws | pointwise; Riemann integral of the output over the draw |
| C25, C26 | loss with its cache, metrics | algebra, derivative, counting, permutation |
| C27-C29 | optimizer state machines | closed forms by induction over histories; map order by permutation |
| C30-C32 | loader state machine with dataset and generator oracles | invariant and closed form over any number of pulls |
| C33, C34 | traversal and linking | invariants of the traversal; exact count of links |
| C35, C36 | names, layer map, parameter and state maps | injectivity of decimal notation and of keys |
| C37 | memory per data id, forward over any topological order | refinement of bottom-up evaluation |
| C38 | backward over any topological order | reverse-mode differentiation by induction over the order, each layer through its derivative theorem |
| C39 | backward twice | frame and determinism lemmas |
| C40, C41 | compile/forward/backward/train histories | induction over histories |
| C42-C46 | byte streams; failing reads leave zero or partial values as iostreams do | codec round trips, prefix analysis |
| C47 | cfg and Build | simulation between the expression and its copy |
| C48 | make_layer | case analysis over the thirteen types |
| C49 | string search, copy loops | induction |
| C50 | initializers on the heap | frame lemmas of C01-C05 |
| C51 | Add layer, construction, parallel loop | pointwise, interleavings |
| C52 | rounding to nearest even | integer arithmetic |
| C53 | sessions of compile/train/forward/backward/step calls | an invariant ("primed" session) preserved by each call; safety of each layer from its shapes |
| C54 | expressions written with the layer API, compiled | construction of the invariant of C53 from the calls alone |
| C55 | forward, loss, backward, step | composition of C37, C38, C25 and C27-C29 |
| C56 | forward in evaluation mode | every layer acts on one sample at a time; induction over the order |
| C57 | the four `main` functions | simulation of the loops by their closed form over all batches and epochs |
| C58 | histories of calls | induction over histories, through C27-C29 |
| C59 | whole files (configuration and state), `Build`, `load_state` | C42/C43 codecs composed with C47 and with the compiled state |
| C60 | file parsing, directory listings, image scaling | induction over lines, listings and pixels |
| C61 | all iterations of a training run | C55 at each iteration of C57's closed form |
| C62 | the characters written, and a reader of the DOT language | lexing lemmas for each statement written; induction over configurations; injectivity of decimal notation |
| C63 | the reference loops, statement by statement | closed forms of the loops by invariants, compared with the library's kernels; induction over histories for the optimizers |
| C64 | each output element as an expression whose operations are rounded, sums in any order | the expressions are equal to the layers of the exact model; continuity at every operation, induction over the graph; explicit bounds for sums of products |
| C65 | argument vectors, a disk (files by path), everything else from outside in one record | reading of decimal numbers by induction; composition of C57, C59, C60 |
| C66 | one collection of layer descriptions, one model/backend/optimizer per part, calls tagged with the model | locality: each call reads and writes only the descriptions its model uses; an invariant ("ready") of every model kept by the calls on all others |
| C67 | the expressions of C64 over finite floats, infinities and NaN, with any rounding; gradients and updates of the Linear and ReLU layers of a perceptron as expressions | magnitudes bounded operation by operation, induction over expressions, sums and the graph; NaN and infinity followed through the step |
| C68 | the layers of C01-C24 and the models of C37 with tensors of any first dimension | the kernels' loops run on a prefix (or an extension) of the output and commute with what lies behind it; shapes followed through the backend's binding of tensors |
| C69 | the size computations, im2col, col2im and every layer once more, with each int operation checked (M_Int), and the passes over whole models with these layers (M_IntModel) | loop by loop equality with the unbounded model, positions kept as an invariant; the overflowing operation is reached because everything before it returns or is undefined; models: shapes and room are an invariant of histories |
| C70 | the updates of SGD, SGDMomentum and Adam as expressions over finite floats, infinities and NaN, and sequences of steps | induction over the steps: a bound that one rounded step keeps; infinite and NaN operands are followed through each operation |
| C71 | the gradients of the activations as expressions over finite floats, infinities and NaN, and the backward pass through a list of layers | a lemma on a product with a computed slope for each activation; induction over the layers with the lemmas of C67 on Linear; zeros are followed exactly through products and sums |
| C72 | forward pass, Softmax, the backward pass of C71 and a step of SGD or SGDMomentum as one iteration, and any sequence of iterations | a lemma on the size of each activation's result, induction over the layers for the forward pass, C71 for the gradients, induction over the batches with the bounds on weights and velocities as invariant |
| C73 | the histories of C29, in exact arithmetic | the closed form of C29; an inequality of Cauchy and Schwarz for the two weighted sums by induction over the steps; the default factor by comparing powers of 0.9 and 0.999 from step 7 on and by computation before |
| C74 | one iteration as the composition of Linear, Softmax, cross entropy, their backward passes and SGD; the loop over batches | closed form of the iteration; convexity of the loss of a row by exp x >= 1 + x; squares of averages for the size of the gradient; induction over the batches on the squared distance to the weights compared with; for small learning rates a quadratic bound on the loss of a row by exp x <= 1 + x + x^2 and the Cauchy-Schwarz inequality; for separable samples the comparison with scaled separating weights, whose loss tends to zero |

## Findings

Behaviour of the code that a user would not expect; each is a theorem about the model.

| finding | theorem |
|---|---|
| `reshape` accepts shapes with an even number of negative dimensions | `C03_reshape_accepts_negative_dims` |
| when `new` fails in `allocate`, shape, strides and total are already changed while the old block is kept | `C02_allocation_failure_is_not_atomic` |
| `copyTo` from a default tensor to a scalar copies nothing and reports success | `C04_copyTo_copies_all_and_only` |
| outShape reports size 1 for a kernel that overhangs by less than a stride, and negative sizes beyond | `C06_output_size_when_kernel_does_not_fit`, `C07_negative_output_size_is_undefined` |
| MaxPooling pads with the smallest positive float: a padded window of negative pixels yields it | `C12_padded_window_of_smaller_pixels_yields_constant` |
| Dropout backward lacks the factor 1/(1-p); in evaluation mode it uses an old mask | `C24_dropout_gradient_lacks_scale`, `C24_dropout_backward_uses_stored_mask` |
| BatchNorm backward after an evaluation-mode forward is not the derivative | `C22_batchnorm1d_evaluation_gradient_is_wrong`, `C22_batchnorm2d_evaluation_gradient_is_wrong` |
| BatchNorm2D overwrites the gradient of its input | `C23_batchnorm2d_overwrites_input_gradient` |
| BatchNorm2D keeps the buffers of its first batch: a larger batch, or backward after a smaller one, is undefined | `C21_batchnorm2d_larger_batch_is_undefined`, `C23_batchnorm2d_backward_after_smaller_batch_is_undefined` |
| labels outside 0..classes-1 read another sample or outside the buffer | `C25_label_outside_row_reads_another_row`, `C25_label_outside_buffer_is_undefined` |
| Adam's shared counter under-corrects parameters that were frozen | `C29_frozen_parameter_is_under_corrected` |
| batch size 0 never ends an epoch | `C30_zero_batch_size_never_ends` |
| shuffled batches of an epoch may repeat items and miss others | `C31_batches_may_repeat_and_items_may_be_missed` |
| an unused input, or a bare input as output, is undefined behaviour | `C33_defined_exactly_when_linked` |
| an operation pending twice in the traversal is linked twice; layers that count inputs then throw (x + x on an intermediate value) | `C34_same_argument_twice`, `C34_repeated_link_throws` |
| backward adds to the caller's `grad_output` tensors when the output is consumed by a layer | `C39_consumed_gradient_is_changed` |
| parameter gradients are assigned, not accumulated as documented | `C39_backward_again` |
| state files cut in the last tensor and empty state files load silently; one byte is enough for a configuration | `C45_*` |
| `load_state` that throws has overwritten the entries before the error | `C46_entries_before_the_error_are_stored` |
| a model whose output feeds another output rebuilds into a model that never runs | `C47_output_used_by_output_breaks` |
| `make_layer` with too few inputs reads past the end of the vector | `C48_missing_inputs_are_undefined` |
| a missing PNG file is `fclose(NULL)`; PNGs with fewer than 8 bits per sample are over-read | `C49_missing_file_is_undefined`, `C49_packed_rows_are_overread` |
| `xavierUniform` divides by a zero first dimension, and is undefined when the features sum to 0 or overflow | `C50_xavier_uniform_corner_cases` |
| counting correct predictions in a float sticks at 2^24 | `C52_count_saturates` |
| Linear, BatchNorm and the like read the shape of a flat argument out of bounds instead of throwing | `C54_flat_arguments_are_read_out_of_bounds` |
| a dataset smaller than a batch makes the samples print 0/0; a print frequency of 0 divides by zero | `C57_datasets_smaller_than_a_batch`, `C57_frequency_zero` |
| load_cfg writes behind a two-element array when the size in a damaged file is larger | `C45_finding_array_sizes_are_not_checked` |
| the iris reader has undefined behaviour on a short row and silently accepts a missing file | `C60_short_row_is_undefined`, `C60_missing_table_is_empty` |
| a foreign entry in a MNIST folder throws; CIFAR-100 numbers its classes by the order of the directory listing | `C60_mnist_foreign_entry_throws`, `C60_cifar100_numbers_depend_on_the_listing` |
| drawings show an extra arrow for each repeated link | `C62_relinked_calls_get_extra_arrows` |
| drawings of layers whose name is not an identifier are broken | `C62_names_of_two_words_are_torn` |
| a label outside its row is accepted; library and reference then differ | `C63_finding_label_outside_row` |
| the reference backward of Dropout lacks the factor 1/(1-p) as well, so the unit test cannot see it | `C63_finding_dropout_reference` |
| the samples do not check the number of arguments; a frequency that is no number divides by zero | `C65_arguments`, `C65_no_frequency_is_undefined` |
| a model file that cannot be written is not noticed; the program says that the model is saved | `C65_unwritable_file_is_not_noticed` |
| without its tables the iris program prints figures that are no numbers and saves the new network | `C65_without_tables_nothing_is_learned` |
| of two models over overlapping expressions, one order of building them succeeds and the other throws | `C66_finding_order_of_building_matters` |
| backward through a Dropout layer that two models share uses the mask of whichever ran last | `C66_finding_shared_dropout` |
| one sample whose class gets a logit 104 below another one turns all weights of the last layer, and of the active units before it, into NaN, for ever | `C67_finding_confident_mistakes_destroy_the_weights`, `C67_finding_nan_weights_stay`, `C67_finding_mistakes_destroy_the_layers_before` |
| infinite and NaN weights never recover; with Adam one gradient of 2^76 can freeze a weight for ever, silently | `C70_finding_lost_values_stay_lost`, `C70_finding_adam_freezes`, `C70_finding_one_large_gradient_freezes` |
| units whose Sigmoid was rounded to 0 or 1, or whose ReLU was inactive, for a whole batch learn nothing from it | `C71_finding_saturated_units_learn_nothing` |
| training never recovers: weights, biases and velocities that are infinite or NaN stay so whatever batches follow | `C72_finding_training_never_recovers` |
| a large gradient after many zero ones makes Adam move a weight by more than three learning rates | `C73_finding_rare_gradients_move_more` |
| Adam accepts coefficients (0.9, 0.5) for which a step has no bound in terms of the learning rate | `C73_finding_coefficients_without_a_bound` |
| most layers do not check the batch size: larger batches are undefined behaviour, smaller ones leave old values in the output of Convolution and MaxPooling | `C68_finding_other_layers_do_not_check`, `C68_finding_smaller_batches_leave_old_values` |
| a convolution whose unfolded batch has more than INT_MAX elements overflows, although every tensor fits; so do convolution and max pooling with large strides | `C69_finding_large_batches_are_undefined`, `C69_finding_large_strides_are_undefined`, `C69_finding_large_pooling_windows_are_undefined` |
| MaxPooling records positions as floats: wrong beyond 2^24 | `C69_finding_positions_are_rounded` |
| BatchNorm2D given a smaller batch returns items of the batch before | `C68_finding_batchnorm2d_mixes_batches` |
| testing a saved network with another batch size than it was trained with never ends normally | `C65_finding_other_batch_sizes` |

## Trusted base

* Coq 8.16.1's kernel, including its `vm_compute` machine.
* The reading of the C++ recorded in the comments of `M_*.v`, with the decisions and omissions above.
* Axioms of the standard library, as `Print Assumptions` reports them. No other axiom occurs and no
  other library is used.

`sig_forall_dec` and `sig_not_dec` come from `Coq.Reals.ClassicalDedekindReals` (the construction of
the real numbers), `functional_extensionality_dep` from `Coq.Logic.FunctionalExtensionality`,
`classic` from `Coq.Logic.Classical_Prop`.

* **no axioms**: `C01_fresh_tensor_row_major`, `C02_negative_shape_rejected_atomically`, `C02_allocation_failure_is_not_atomic`, `C03_reshape_keeps_data`, `C03_reshape_accepts_negative_dims`, `C04_copyTo_copies_all_and_only`, `C04_copies_stay_independent`, `C05_histories_are_safe`, `C05_copies_alias`, `C05_separate_tensors_never_overlap`, `C06_output_size_counts_windows`, `C06_output_size_when_kernel_does_not_fit`, `C07_im2col_lays_out_padded_windows`, `C07_negative_output_size_is_undefined`, `C10_no_data_race`, `C10_bit_for_bit`, `C10_schedules_complete`, `C12_without_padding_every_cell_is_a_pixel`, `C14_layout_conversion_moves_every_element`, `C14_layout_conversions_are_inverse`, `C30_sequential_epochs`, `C30_zero_batch_size_never_ends`, `C31_shuffled_batches`, `C31_returns_when_generator_is_productive`, `C31_batches_may_repeat_and_items_may_be_missed`, `C32_exception_keeps_position`, `C32_failed_calls_are_repeated`, `C32_negative_batch_size_throws`, `C33_traversal_terminates_and_collects`, `C33_nodes_and_links`, `C33_defined_exactly_when_linked`, `C34_linked_once`, `C34_outputs_linked_repeatedly`, `C36_key_determines_layer_and_name`, `C41_train_sets_every_parameter`, `C41_last_call_wins`, `C42_state_round_trip`, `C42_dictionaries_become_equal`, `C43_configuration_round_trip`, `C43_unsupported_attributes_throw`, `C43_save_load`, `C44_state_from_configuration_throws`, `C44_state_from_model_throws`, `C44_configuration_from_state_throws`, `C44_missing_or_empty_configuration_throws`, `C44_missing_state_throws`, `C45_truncated_configuration`, `C45_finding_array_sizes_are_not_checked`, `C45_truncated_file`, `C45_elements_are_saved_or_old`, `C45_cut_in_the_last_tensor_is_accepted`, `C45_empty_file_is_accepted`, `C45_first_byte_of_a_configuration_is_accepted`, `C46_entries_before_the_error_are_stored`, `C46_layout_is_kept`, `C49_decoder_is_chosen_by_extension`, `C49_one_extension`, `C49_empty_tensor_gets_the_image`, `C49_matching_tensor_gets_the_image`, `C49_other_tensors_are_refused`, `C49_packed_rows_are_overread`, `C49_missing_file_is_undefined`, `C52_rounding`, `C52_integers_are_exact`, `C52_indices_and_labels_survive`, `C52_label_comparison_is_exact`, `C52_count_saturates`, `C52_next_integer_is_lost`, `C60_short_row_is_undefined`, `C60_mnist_foreign_entry_throws`, `C60_cifar100_numbers_depend_on_the_listing`, `C60_mnist_labels_are_numbers`, `C60_mnist_large_numbers_throw`, `C60_missing_folder_throws`, `C62_generated_names_can_be_drawn`, `C62_configurations_are_drawn`, `C62_names_of_two_words_are_torn`, `C62_printed_shapes`, `C62_printed_tensors`, `C65_numbers_in_arguments`, `C69_result_sizes`, `C69_result_shapes`, `C69_ordinary_windows_fit`.
* `sig_forall_dec`, `functional_extensionality_dep`: `C08_col2im_adds_all_windows_of_a_pixel`, `C08_col2im_is_adjoint_of_im2col`, `C10_parallel_input_gradient_equals_sequential`, `C26_accuracy_is_share_of_correct_rows`, `C26_one_hot_accuracy_is_share_of_correct_rows`, `C26_accuracy_ignores_sample_order`, `C26_one_hot_accuracy_ignores_sample_order`, `C26_metrics_agree_on_one_hot_labels`, `C26_throws_exactly_on_shape_mismatch`, `C27_sgd_history`, `C28_momentum_history`, `C28_weights_of_the_velocity_sum`, `C50_uniform`, `C51_add_backward_any_schedule`, `C60_iris_table_is_read`, `C60_mnist_folders_are_read`, `C60_cifar10_folders_are_read`, `C60_cifar100_folders_are_read`, `C60_other_sizes_throw`, `C63_finding_dropout_reference`, `C63_loss_backward`, `C63_finding_label_outside_row`, `C64_float32`, `C64_sums_in_any_order`, `C67_roundings`.
* `sig_forall_dec`, `sig_not_dec`, `functional_extensionality_dep`: `C09_convolution_is_padded_cross_correlation`, `C11_convolution_gradients_are_partial_derivatives`, `C12_maxpooling_is_window_maximum`, `C12_padded_window_of_smaller_pixels_yields_constant`, `C13_maxpooling_gradient_goes_to_one_maximal_cell`, `C13_maxpooling_gradient_is_derivative_at_clear_maxima`, `C15_global_average_pooling`, `C15_global_average_pooling_gradients_are_derivatives`, `C16_linear_forward`, `C16_linear_gradients_are_derivatives`, `C17_activations`, `C17_activation_gradients_are_derivatives`, `C18_exponential_only_of_nonpositive_numbers`, `C18_denominator_at_least_one`, `C19_softmax_gradients_are_derivatives`, `C19_added_rows_sum_to_zero`, `C20_batchnorm1d_normalises`, `C20_batchnorm1d_output`, `C20_batchnorm2d_normalises`, `C20_batchnorm2d_output`, `C21_batchnorm1d_running_statistics`, `C21_batchnorm2d_running_statistics`, `C21_batchnorm1d_evaluation`, `C21_batchnorm2d_evaluation`, `C21_batchnorm2d_larger_batch_is_undefined`, `C22_batchnorm1d_gradients_are_derivatives`, `C22_batchnorm2d_gradients_are_derivatives`, `C22_batchnorm1d_evaluation_gradient_is_wrong`, `C22_batchnorm2d_evaluation_gradient_is_wrong`, `C23_batchnorm2d_overwrites_input_gradient`, `C23_batchnorm2d_ignores_old_input_gradient`, `C23_batchnorm2d_backward_after_smaller_batch_is_undefined`, `C24_dropout_evaluation_is_identity`, `C24_dropout_training`, `C24_dropout_gradient_lacks_scale`, `C24_dropout_backward_uses_stored_mask`, `C29_adam_history`, `C29_constant_gradient`, `C29_frozen_parameter_is_under_corrected`, `C29_iteration_order_is_irrelevant`, `C33_graph_is_acyclic`, `C33_model_records_exactly_the_needed_part`, `C34_recorded_ids`, `C34_chain_or_tree_linked_once`, `C34_linked_repeatedly`, `C34_same_argument_twice`, `C34_returns_only_if_linked_once`, `C34_repeated_link_throws`, `C35_constructed_exactly_when_names_are_distinct`, `C35_get_layer`, `C35_generated_names_never_collide`, `C36_keys_are_complete_and_distinct`, `C37_fitting_models_can_be_evaluated`, `C37_forward_evaluates`, `C37_evaluation_is_unique`, `C37_compile_prepares`, `C38_backward_computes_gradients`, `C38_layers_have_right_gradients`, `C38_gradients_of_fitting_models`, `C39_backward_again`, `C39_only_gradients_change`, `C39_inputs_and_outputs_are_kept`, `C39_unconsumed_gradient_is_kept`, `C39_consumed_gradient_is_changed`, `C40_refused_before_compile`, `C40_accepted_after_compile`, `C40_too_few_tensors_are_read_out_of_bounds`, `C40_further_tensors_are_ignored`, `C41_frozen_model_is_not_optimized`, `C47_rebuilds`, `C47_same_parameters`, `C47_same_outputs`, `C47_one_output`, `C47_output_used_by_output_breaks`, `C48_make_layer_reconstructs`, `C48_other_types_are_rejected`, `C48_missing_inputs_are_undefined`, `C48_missing_attributes_are_rejected`, `C50_xavier_uniform`, `C50_xavier_uniform_corner_cases`, `C51_add_forward_and_backward`, `C51_add_gradients_are_derivatives`, `C51_add_construction`, `C53_sessions_return`, `C53_new_optimizers_fit`, `C54_applying_a_new_layer`, `C54_created_layer_is_the_one_asked_for`, `C54_applying_a_layer_again`, `C54_wrong_ranks_throw`, `C54_flat_arguments_are_read_out_of_bounds`, `C54_compiled_models_are_usable`, `C54_from_scratch_to_training`, `C55_step_changes_the_model`, `C56_train_false_is_evaluation_mode`, `C56_predictions_depend_on_sample_and_weights_only`, `C56_samples_do_not_influence_each_other`, `C56_evaluation_leaves_no_trace`, `C57_samples_build_their_networks`, `C57_sample_optimizers`, `C58_sgd_session`, `C58_momentum_session`, `C58_adam_session`, `C58_no_step_no_change`, `C58_frozen_models_do_not_change`, `C59_loaded_models_are_the_saved_models`, `C59_use_keeps_models_savable`, `C59_what_can_be_saved`, `C59_sample_networks_fit_1024_bytes`, `C62_models_are_drawn`, `C62_relinked_calls_get_extra_arrows`, `C63_linear`, `C63_activations`, `C63_softmax`, `C63_dropout`, `C63_global_average_pooling`, `C63_add`, `C63_batchnorm1d_forward`, `C63_batchnorm1d_backward`, `C63_batchnorm2d_forward`, `C63_batchnorm2d_backward`, `C63_optimizer_step`, `C63_optimizer_histories`, `C64_expressions_are_the_layers`, `C64_outputs_are_near_the_exact_ones`, `C64_predictions_survive_rounding`, `C64_exact_evaluation_is_included`, `C64_rounding_functions_are_included`, `C64_linear_error`, `C64_convolution_error`, `C64_comparing_layers_add_no_error`, `C65_iris_data`, `C65_mnist_data`, `C65_cifar10_data`, `C65_cifar100_data`, `C66_separate_models_do_not_notice_each_other`, `C66_separate_models_return_together`, `C66_an_exception_stays_with_its_model`, `C66_several_models_can_be_trained_in_any_order`, `C66_ready_models_stay_ready`, `C66_forward_uses_the_shared_parameters`, `C66_building_leaves_other_models_alone`, `C66_finding_order_of_building_matters`, `C66_finding_shared_dropout`, `C67_sigmoid_never_overflows`, `C67_float_evaluations_exist`, `C67_finding_confident_mistakes_destroy_the_weights`, `C67_finding_nan_weights_stay`, `C68_activations_and_dropout_throw`, `C68_finding_other_layers_do_not_check`, `C68_finding_smaller_batches_leave_old_values`, `C68_finding_batchnorm2d_mixes_batches`, `C68_forward_keeps_shapes`, `C68_linear_models_need_their_batch_size`, `C69_convolution_is_exact`, `C69_convolution_is_padded_cross_correlation`, `C69_maxpooling_is_exact`, `C69_other_layers_are_exact`, `C69_finding_large_batches_are_undefined`, `C69_finding_large_strides_are_undefined`, `C69_finding_large_pooling_windows_are_undefined`, `C69_models_are_exact`, `C69_histories_are_exact`, `C69_compiled_models_have_room`, `C70_expressions_are_the_steps`, `C70_momentum_step_is_accurate`, `C70_momentum_stays_finite`, `C70_adam_step_is_accurate`, `C70_adam_stays_finite`, `C70_finding_lost_values_stay_lost`, `C70_finding_adam_freezes`, `C70_finding_one_large_gradient_freezes`, `C71_expressions_are_the_kernels`, `C72_expressions_are_the_kernels`, `C72_training_in_parts`, `C72_finding_training_never_recovers`, `C73_histories_are_bounded`, `C73_steps_are_bounded`, `C73_factors`, `C73_scale_does_not_matter`, `C73_finding_rare_gradients_move_more`, `C73_finding_coefficients_without_a_bound`.
* `sig_forall_dec`: `C10_parallel_convolution_equals_sequential`, `C27_sgd_step`, `C27_iteration_order_is_irrelevant`, `C27_mismatched_gradient_throws`, `C28_iteration_order_is_irrelevant`, `C48_every_type_is_supported`, `C50_zeros_and_constant`, `C60_missing_table_is_empty`, `C69_finding_positions_are_rounded`.
* `sig_forall_dec`, `sig_not_dec`, `classic`, `functional_extensionality_dep`: `C18_softmax_is_a_distribution`, `C24_dropout_draw_average`, `C25_loss_is_mean_negative_log_likelihood`, `C25_gradient_is_partial_derivative`, `C25_softmax_cross_entropy_gradient`, `C25_label_outside_buffer_is_undefined`, `C25_throws_exactly_on_shape_mismatch`, `C25_label_outside_row_reads_another_row`, `C55_iteration_steps_along_the_gradient`, `C55_sgd_iteration_is_gradient_descent`, `C55_training_a_classifier`, `C57_training_program`, `C57_samples_train`, `C57_what_is_printed`, `C57_datasets_smaller_than_a_batch`, `C57_frequency_zero`, `C59_test_mode_measures_the_trained_model`, `C59_training_keeps_models_savable`, `C60_iris_program`, `C60_mnist_program`, `C60_cifar10_program`, `C60_cifar100_program`, `C61_training_descends_along_the_gradient`, `C61_samples_descend`, `C63_loss_forward`, `C65_train_and_test_commands`, `C65_no_epochs_saves_the_new_network`, `C65_unwritable_file_is_not_noticed`, `C65_arguments`, `C65_missing_folder_throws`, `C65_no_frequency_is_undefined`, `C65_without_tables_nothing_is_learned`, `C65_finding_other_batch_sizes`, `C67_softmax_never_overflows`, `C67_networks_stay_finite`, `C67_finite_networks_are_rounded_evaluations`, `C67_expressions_are_the_kernels`, `C67_training_step_stays_finite`, `C67_training_step_is_accurate`, `C67_mlp_step_is_accurate`, `C67_finding_mistakes_destroy_the_layers_before`, `C71_gradients_are_accurate`, `C71_classifier_gradients_are_accurate`, `C71_finding_saturated_units_learn_nothing`, `C72_training_stays_finite`, `C72_losses_stay_finite`, `C72_iterations_are_accurate`, `C72_momentum_training_stays_finite`, `C72_momentum_losses_stay_finite`, `C72_momentum_iterations_are_accurate`, `C72_finite_until_a_confident_mistake`, `C72_momentum_finite_until_a_confident_mistake`, `C72_bounds_grow_slowly`, `C74_nearly_as_good_as_any_weights`, `C74_moves_closer_to_better_weights`, `C74_gradients_bound_the_loss_of_all_weights`, `C74_zero_gradients_mean_smallest_loss`, `C74_loss_decreases`, `C74_converges_to_the_smallest_loss`, `C74_total_loss_is_bounded`, `C74_separable_samples_are_learnt`, `C74_average_loss_on_separable_batches_vanishes`, `C74_misclassifying_iterations_are_rare`.
