{
 "claims": [
  {
   "property": "C01",
   "status": "proved",
   "theorems": [
    "C01_fresh_tensor_row_major"
   ],
   "note": "Any shape whose partial products fit int; overflow is an explicit UB outcome."
  },
  {
   "property": "C02",
   "status": "proved",
   "theorems": [
    "C02_negative_shape_rejected_atomically",
    "C02_allocation_failure_is_not_atomic"
   ],
   "note": "Exceptions carry the state they leave behind. Out-of-memory is a separate finding."
  },
  {
   "property": "C03",
   "status": "proved",
   "theorems": [
    "C03_reshape_keeps_data",
    "C03_reshape_accepts_negative_dims"
   ],
   "note": ""
  },
  {
   "property": "C04",
   "status": "proved",
   "theorems": [
    "C04_copyTo_copies_all_and_only",
    "C04_copies_stay_independent"
   ],
   "note": "Includes the corner where a default tensor is copied to a scalar and nothing happens."
  },
  {
   "property": "C05",
   "status": "proved",
   "theorems": [
    "C05_histories_are_safe",
    "C05_copies_alias",
    "C05_separate_tensors_never_overlap"
   ],
   "note": "All call histories, exceptions caught; lifetime of the last handle is not modelled."
  },
  {
   "property": "C06",
   "status": "proved",
   "theorems": [
    "C06_output_size_counts_windows",
    "C06_output_size_when_kernel_does_not_fit"
   ],
   "note": "Unbounded integers (32-bit ints: C69); finding: size 1 reported for a kernel that overhangs by less than a stride."
  },
  {
   "property": "C07",
   "status": "proved",
   "theorems": [
    "C07_im2col_lays_out_padded_windows",
    "C07_negative_output_size_is_undefined"
   ],
   "note": ""
  },
  {
   "property": "C08",
   "status": "proved",
   "theorems": [
    "C08_col2im_adds_all_windows_of_a_pixel",
    "C08_col2im_is_adjoint_of_im2col"
   ],
   "note": "Over the reals."
  },
  {
   "property": "C09",
   "status": "proved",
   "theorems": [
    "C09_convolution_is_padded_cross_correlation"
   ],
   "note": "Real arithmetic; any batch, channels, geometry."
  },
  {
   "property": "C10",
   "status": "proved",
   "theorems": [
    "C10_parallel_convolution_equals_sequential",
    "C10_parallel_input_gradient_equals_sequential",
    "C10_no_data_race",
    "C10_bit_for_bit",
    "C10_schedules_complete"
   ],
   "note": "Element-access interleavings of all iterations. C10_bit_for_bit holds for any element type and any rounding of its operations."
  },
  {
   "property": "C11",
   "status": "proved",
   "theorems": [
    "C11_convolution_gradients_are_partial_derivatives"
   ],
   "note": "Partial derivatives in the epsilon-delta sense of the standard library."
  },
  {
   "property": "C12",
   "status": "proved",
   "theorems": [
    "C12_maxpooling_is_window_maximum",
    "C12_without_padding_every_cell_is_a_pixel",
    "C12_padded_window_of_smaller_pixels_yields_constant"
   ],
   "note": "Finding: padding is FLT_MIN, not minus infinity."
  },
  {
   "property": "C13",
   "status": "proved",
   "theorems": [
    "C13_maxpooling_gradient_goes_to_one_maximal_cell",
    "C13_maxpooling_gradient_is_derivative_at_clear_maxima"
   ],
   "note": "Which of several equal maxima Eigen picks is left open."
  },
  {
   "property": "C14",
   "status": "proved",
   "theorems": [
    "C14_layout_conversion_moves_every_element",
    "C14_layout_conversions_are_inverse"
   ],
   "note": ""
  },
  {
   "property": "C15",
   "status": "proved",
   "theorems": [
    "C15_global_average_pooling",
    "C15_global_average_pooling_gradients_are_derivatives"
   ],
   "note": ""
  },
  {
   "property": "C16",
   "status": "proved",
   "theorems": [
    "C16_linear_forward",
    "C16_linear_gradients_are_derivatives"
   ],
   "note": ""
  },
  {
   "property": "C17",
   "status": "proved",
   "theorems": [
    "C17_activations",
    "C17_activation_gradients_are_derivatives"
   ],
   "note": "ReLU, LeakyReLU and ELU gradients at points where no input element is zero; Sigmoid everywhere."
  },
  {
   "property": "C18",
   "status": "proved",
   "theorems": [
    "C18_softmax_is_a_distribution",
    "C18_exponential_only_of_nonpositive_numbers",
    "C18_denominator_at_least_one"
   ],
   "note": "Real arithmetic; the overflow argument is that every exponent is at most 0 and the denominator at least 1."
  },
  {
   "property": "C19",
   "status": "proved",
   "theorems": [
    "C19_softmax_gradients_are_derivatives",
    "C19_added_rows_sum_to_zero"
   ],
   "note": ""
  },
  {
   "property": "C20",
   "status": "proved",
   "theorems": [
    "C20_batchnorm1d_normalises",
    "C20_batchnorm1d_output",
    "C20_batchnorm2d_normalises",
    "C20_batchnorm2d_output"
   ],
   "note": "Any batch, features, channels; eps > 0."
  },
  {
   "property": "C21",
   "status": "proved",
   "theorems": [
    "C21_batchnorm1d_running_statistics",
    "C21_batchnorm2d_running_statistics",
    "C21_batchnorm1d_evaluation",
    "C21_batchnorm2d_evaluation",
    "C21_batchnorm2d_larger_batch_is_undefined"
   ],
   "note": "All call histories; for BatchNorm2D no batch may be larger than the first, which is a finding: a larger one writes out of bounds."
  },
  {
   "property": "C22",
   "status": "proved",
   "theorems": [
    "C22_batchnorm1d_gradients_are_derivatives",
    "C22_batchnorm2d_gradients_are_derivatives",
    "C22_batchnorm1d_evaluation_gradient_is_wrong",
    "C22_batchnorm2d_evaluation_gradient_is_wrong"
   ],
   "note": "Training mode; the evaluation-mode gradients are proved wrong (finding)."
  },
  {
   "property": "C23",
   "status": "proved",
   "theorems": [
    "C23_batchnorm2d_overwrites_input_gradient",
    "C23_batchnorm2d_ignores_old_input_gradient",
    "C23_batchnorm2d_backward_after_smaller_batch_is_undefined"
   ],
   "note": "Finding: BatchNorm2D replaces the gradient of its input, and backward after a smaller batch is undefined."
  },
  {
   "property": "C24",
   "status": "proved",
   "theorems": [
    "C24_dropout_evaluation_is_identity",
    "C24_dropout_training",
    "C24_dropout_draw_average",
    "C24_dropout_gradient_lacks_scale",
    "C24_dropout_backward_uses_stored_mask"
   ],
   "note": "The random draws are an arbitrary function; findings: missing 1/(1-p) in backward, evaluation-mode backward uses an old mask."
  },
  {
   "property": "C25",
   "status": "proved",
   "theorems": [
    "C25_loss_is_mean_negative_log_likelihood",
    "C25_gradient_is_partial_derivative",
    "C25_softmax_cross_entropy_gradient",
    "C25_label_outside_buffer_is_undefined",
    "C25_throws_exactly_on_shape_mismatch",
    "C25_label_outside_row_reads_another_row"
   ],
   "note": "Findings: labels outside the row read another sample or are undefined."
  },
  {
   "property": "C26",
   "status": "proved",
   "theorems": [
    "C26_accuracy_is_share_of_correct_rows",
    "C26_one_hot_accuracy_is_share_of_correct_rows",
    "C26_accuracy_ignores_sample_order",
    "C26_one_hot_accuracy_ignores_sample_order",
    "C26_metrics_agree_on_one_hot_labels",
    "C26_throws_exactly_on_shape_mismatch"
   ],
   "note": "Ties are broken by whichever maximal column Eigen picks."
  },
  {
   "property": "C27",
   "status": "proved",
   "theorems": [
    "C27_sgd_step",
    "C27_iteration_order_is_irrelevant",
    "C27_sgd_history",
    "C27_mismatched_gradient_throws"
   ],
   "note": "Any map order, any history of steps, freezing and learning-rate changes."
  },
  {
   "property": "C28",
   "status": "proved",
   "theorems": [
    "C28_momentum_history",
    "C28_weights_of_the_velocity_sum",
    "C28_iteration_order_is_irrelevant"
   ],
   "note": ""
  },
  {
   "property": "C29",
   "status": "proved",
   "theorems": [
    "C29_adam_history",
    "C29_constant_gradient",
    "C29_frozen_parameter_is_under_corrected",
    "C29_iteration_order_is_irrelevant"
   ],
   "note": "Finding: the shared counter under-corrects parameters that were frozen."
  },
  {
   "property": "C30",
   "status": "proved",
   "theorems": [
    "C30_sequential_epochs",
    "C30_zero_batch_size_never_ends"
   ],
   "note": "Any dataset, any number of epochs, adaptive caller. Finding: batch size 0 never ends an epoch."
  },
  {
   "property": "C31",
   "status": "proved",
   "theorems": [
    "C31_shuffled_batches",
    "C31_returns_when_generator_is_productive",
    "C31_batches_may_repeat_and_items_may_be_missed"
   ],
   "note": "Termination is relative to the generator producing enough distinct draws. Finding: items may repeat and be missed."
  },
  {
   "property": "C32",
   "status": "proved",
   "theorems": [
    "C32_exception_keeps_position",
    "C32_failed_calls_are_repeated",
    "C32_negative_batch_size_throws"
   ],
   "note": "Dataset may throw at any point after any partial writes."
  },
  {
   "property": "C33",
   "status": "proved",
   "theorems": [
    "C33_traversal_terminates_and_collects",
    "C33_nodes_and_links",
    "C33_defined_exactly_when_linked",
    "C33_graph_is_acyclic",
    "C33_model_records_exactly_the_needed_part"
   ],
   "note": "Finding: naming an unused input, or a bare input that no operation uses as output, is undefined behaviour."
  },
  {
   "property": "C34",
   "status": "proved",
   "theorems": [
    "C34_recorded_ids",
    "C34_linked_once",
    "C34_chain_or_tree_linked_once",
    "C34_linked_repeatedly",
    "C34_outputs_linked_repeatedly",
    "C34_same_argument_twice",
    "C34_returns_only_if_linked_once",
    "C34_repeated_link_throws"
   ],
   "note": "Includes the run-time consequence: a non-tolerant layer linked more than once makes forward throw. Finding: x + x on an intermediate value throws."
  },
  {
   "property": "C35",
   "status": "proved",
   "theorems": [
    "C35_constructed_exactly_when_names_are_distinct",
    "C35_get_layer",
    "C35_generated_names_never_collide"
   ],
   "note": "Any sorting of the graph, any user names."
  },
  {
   "property": "C36",
   "status": "proved",
   "theorems": [
    "C36_keys_are_complete_and_distinct",
    "C36_key_determines_layer_and_name"
   ],
   "note": "Both collections refer to the same live cell."
  },
  {
   "property": "C37",
   "status": "proved",
   "theorems": [
    "C37_fitting_models_can_be_evaluated",
    "C37_forward_evaluates",
    "C37_evaluation_is_unique",
    "C37_compile_prepares"
   ],
   "note": "Any layer implementation state for which the expression has a value; Dropout's mask is the only parameter forward writes."
  },
  {
   "property": "C38",
   "status": "proved",
   "theorems": [
    "C38_backward_computes_gradients",
    "C38_layers_have_right_gradients",
    "C38_gradients_of_fitting_models"
   ],
   "note": "Layers with right gradients (all thirteen have them, C38_layers_have_right_gradients, away from kinks); BatchNorm2D, which overwrites instead of adding, only as sole consumer; operations reached twice through duplicated links only where the layer tolerates it."
  },
  {
   "property": "C39",
   "status": "proved",
   "theorems": [
    "C39_backward_again",
    "C39_only_gradients_change",
    "C39_inputs_and_outputs_are_kept",
    "C39_unconsumed_gradient_is_kept",
    "C39_consumed_gradient_is_changed"
   ],
   "note": "Any layers and any state; that a consumed output gradient really changes is shown on a two-layer model for all values."
  },
  {
   "property": "C40",
   "status": "proved",
   "theorems": [
    "C40_refused_before_compile",
    "C40_accepted_after_compile",
    "C40_too_few_tensors_are_read_out_of_bounds",
    "C40_further_tensors_are_ignored"
   ],
   "note": "Histories of compile, forward, backward, train and arbitrary outside changes, with exceptions. Finding: the number of tensors is not checked; too few are read past the end of the vector."
  },
  {
   "property": "C41",
   "status": "proved",
   "theorems": [
    "C41_train_sets_every_parameter",
    "C41_last_call_wins",
    "C41_frozen_model_is_not_optimized"
   ],
   "note": "All three optimizers."
  },
  {
   "property": "C42",
   "status": "proved",
   "theorems": [
    "C42_state_round_trip",
    "C42_dictionaries_become_equal"
   ],
   "note": "Every order of the entries on either side; same number of elements required besides the same shape (a default tensor and a scalar share the shape {})."
  },
  {
   "property": "C43",
   "status": "proved",
   "theorems": [
    "C43_configuration_round_trip",
    "C43_unsupported_attributes_throw",
    "C43_save_load"
   ],
   "note": "Float attributes are bit patterns; attributes of other types make saving throw."
  },
  {
   "property": "C44",
   "status": "proved",
   "theorems": [
    "C44_state_from_configuration_throws",
    "C44_state_from_model_throws",
    "C44_configuration_from_state_throws",
    "C44_missing_or_empty_configuration_throws",
    "C44_missing_state_throws"
   ],
   "note": ""
  },
  {
   "property": "C45",
   "status": "proved",
   "theorems": [
    "C45_truncated_configuration",
    "C45_finding_array_sizes_are_not_checked",
    "C45_truncated_file",
    "C45_elements_are_saved_or_old",
    "C45_cut_in_the_last_tensor_is_accepted",
    "C45_empty_file_is_accepted",
    "C45_first_byte_of_a_configuration_is_accepted"
   ],
   "note": "Findings: a file cut in the data of its last entry, an empty state file and a one-byte configuration file are accepted silently; C45_finding_array_sizes_are_not_checked (buffer overflow on a damaged array size)."
  },
  {
   "property": "C46",
   "status": "proved",
   "theorems": [
    "C46_entries_before_the_error_are_stored",
    "C46_layout_is_kept"
   ],
   "note": "The layout statement holds for arbitrary files."
  },
  {
   "property": "C47",
   "status": "proved",
   "theorems": [
    "C47_rebuilds",
    "C47_same_parameters",
    "C47_same_outputs",
    "C47_one_output",
    "C47_output_used_by_output_breaks"
   ],
   "note": "Build succeeds on the configuration of every closed model, for every sorting; the result is the model of a copy of the needed expression; with the same values by name both compute the same outputs. Finding: when an output feeds another output, the rebuilt model lists them in an order whose repeated links make forward throw (C47_output_used_by_output_breaks, C47_broken_rebuild)."
  },
  {
   "property": "C48",
   "status": "proved",
   "theorems": [
    "C48_make_layer_reconstructs",
    "C48_other_types_are_rejected",
    "C48_every_type_is_supported",
    "C48_missing_inputs_are_undefined",
    "C48_missing_attributes_are_rejected"
   ],
   "note": "Finding: too few inputs are read past the end of the vector."
  },
  {
   "property": "C49",
   "status": "proved",
   "theorems": [
    "C49_decoder_is_chosen_by_extension",
    "C49_one_extension",
    "C49_empty_tensor_gets_the_image",
    "C49_matching_tensor_gets_the_image",
    "C49_other_tensors_are_refused",
    "C49_packed_rows_are_overread",
    "C49_missing_file_is_undefined"
   ],
   "note": "The decoders are oracles. Findings: PNGs with fewer than 8 bits per sample are read out of bounds; a missing file is undefined behaviour (fclose of a null pointer)."
  },
  {
   "property": "C50",
   "status": "proved",
   "theorems": [
    "C50_zeros_and_constant",
    "C50_uniform",
    "C50_xavier_uniform",
    "C50_xavier_uniform_corner_cases"
   ],
   "note": "Findings: xavier with the sum of features 0 or overflowing int is undefined; see the corner-case theorem."
  },
  {
   "property": "C51",
   "status": "proved",
   "theorems": [
    "C51_add_forward_and_backward",
    "C51_add_gradients_are_derivatives",
    "C51_add_backward_any_schedule",
    "C51_add_construction"
   ],
   "note": "Real arithmetic; loop interleavings at the level of single reads and writes."
  },
  {
   "property": "C52",
   "status": "proved",
   "theorems": [
    "C52_rounding",
    "C52_integers_are_exact",
    "C52_indices_and_labels_survive",
    "C52_label_comparison_is_exact",
    "C52_count_saturates",
    "C52_next_integer_is_lost"
   ],
   "note": "Rounding is formalised by hand in integers and proved to be nearest-even; infinities and NaN are out of scope."
  },
  {
   "property": "C53",
   "status": "proved",
   "theorems": [
    "C53_sessions_return",
    "C53_new_optimizers_fit"
   ],
   "note": "The calls of cifar10/main.cpp and any other order of them; layers reached more than once through duplicated links only where the layer tolerates it."
  },
  {
   "property": "C54",
   "status": "proved",
   "theorems": [
    "C54_applying_a_new_layer",
    "C54_created_layer_is_the_one_asked_for",
    "C54_applying_a_layer_again",
    "C54_wrong_ranks_throw",
    "C54_flat_arguments_are_read_out_of_bounds",
    "C54_compiled_models_are_usable",
    "C54_from_scratch_to_training"
   ],
   "note": "Shapes without empty dimensions whose element counts fit an int; the arithmetic of outShape itself is unbounded (C69 says when that is what the machine computes)."
  },
  {
   "property": "C55",
   "status": "proved",
   "theorems": [
    "C55_step_changes_the_model",
    "C55_iteration_steps_along_the_gradient",
    "C55_sgd_iteration_is_gradient_descent",
    "C55_training_a_classifier"
   ],
   "note": "Exact arithmetic. The derivative statement needs smoothness at the point (see C38) and, without Softmax, positive predictions at the labels."
  },
  {
   "property": "C56",
   "status": "proved",
   "theorems": [
    "C56_train_false_is_evaluation_mode",
    "C56_predictions_depend_on_sample_and_weights_only",
    "C56_samples_do_not_influence_each_other",
    "C56_evaluation_leaves_no_trace"
   ],
   "note": "Exact arithmetic. Backward is not involved: its own restrictions in evaluation mode are in C22 and C24."
  },
  {
   "property": "C57",
   "status": "proved",
   "theorems": [
    "C57_samples_build_their_networks",
    "C57_training_program",
    "C57_samples_train",
    "C57_sample_optimizers",
    "C57_what_is_printed",
    "C57_datasets_smaller_than_a_batch",
    "C57_frequency_zero"
   ],
   "note": "Training mode of the four programs; reading the files of the datasets is C60, the test mode C59."
  },
  {
   "property": "C58",
   "status": "proved",
   "theorems": [
    "C58_sgd_session",
    "C58_momentum_session",
    "C58_adam_session",
    "C58_no_step_no_change",
    "C58_frozen_models_do_not_change"
   ],
   "note": "Exact arithmetic; the gradients of a step are those the parameters hold when it is made (what backward leaves there is C38)."
  },
  {
   "property": "C59",
   "status": "proved",
   "theorems": [
    "C59_loaded_models_are_the_saved_models",
    "C59_use_keeps_models_savable",
    "C59_test_mode_measures_the_trained_model",
    "C59_training_keeps_models_savable",
    "C59_what_can_be_saved",
    "C59_sample_networks_fit_1024_bytes"
   ],
   "note": "Exact arithmetic: the floats of the model are reals that some 32-bit encoding represents (S_Saved.exact); names, shapes and counts are such that the fields of the file can hold them and the memory suffices (S_Saved.savable)."
  },
  {
   "property": "C60",
   "status": "proved",
   "theorems": [
    "C60_iris_table_is_read",
    "C60_iris_program",
    "C60_short_row_is_undefined",
    "C60_missing_table_is_empty",
    "C60_mnist_folders_are_read",
    "C60_mnist_program",
    "C60_mnist_foreign_entry_throws",
    "C60_cifar10_folders_are_read",
    "C60_cifar10_program",
    "C60_cifar100_folders_are_read",
    "C60_cifar100_program",
    "C60_cifar100_numbers_depend_on_the_listing",
    "C60_other_sizes_throw",
    "C60_mnist_labels_are_numbers",
    "C60_mnist_large_numbers_throw",
    "C60_missing_folder_throws"
   ],
   "note": "Texts, directory listings, atof and the image decoders are arguments; division by 255 is exact."
  },
  {
   "property": "C61",
   "status": "proved",
   "theorems": [
    "C61_training_descends_along_the_gradient",
    "C61_samples_descend"
   ],
   "note": "Exact arithmetic. The direction is claimed away from kinks and ties (S_Descent.away_from_kinks) and for networks without Dropout (whose backward pass is not the derivative, see C24)."
  },
  {
   "property": "C62",
   "status": "proved",
   "theorems": [
    "C62_models_are_drawn",
    "C62_generated_names_can_be_drawn",
    "C62_relinked_calls_get_extra_arrows",
    "C62_configurations_are_drawn",
    "C62_names_of_two_words_are_torn",
    "C62_printed_shapes",
    "C62_printed_tensors"
   ],
   "note": "The reader of DOT files in S_Dot covers words, quoted strings, attribute lists, node, edge and assignment statements. Writing to the stream never fails in the model. How a number is printed is an argument. C62_relinked_calls_get_extra_arrows and C62_names_of_two_words_are_torn state what goes wrong otherwise."
  },
  {
   "property": "C63",
   "status": "proved",
   "theorems": [
    "C63_linear",
    "C63_activations",
    "C63_softmax",
    "C63_dropout",
    "C63_finding_dropout_reference",
    "C63_global_average_pooling",
    "C63_add",
    "C63_batchnorm1d_forward",
    "C63_batchnorm1d_backward",
    "C63_batchnorm2d_forward",
    "C63_batchnorm2d_backward",
    "C63_loss_forward",
    "C63_loss_backward",
    "C63_finding_label_outside_row",
    "C63_optimizer_step",
    "C63_optimizer_histories"
   ],
   "note": "Exact arithmetic: values that the C++ programs round differently are equal here; domain hypotheses (positive epsilon, non-empty batches in training) are in the statements. The reference kernels that call another library (convolution, max pooling: lines 409-502) are not modelled; those layers have C09-C13. Findings: C63_finding_label_outside_row, C63_finding_dropout_reference."
  },
  {
   "property": "C64",
   "status": "proved",
   "theorems": [
    "C64_expressions_are_the_layers",
    "C64_outputs_are_near_the_exact_ones",
    "C64_predictions_survive_rounding",
    "C64_exact_evaluation_is_included",
    "C64_rounding_functions_are_included",
    "C64_float32",
    "C64_sums_in_any_order",
    "C64_linear_error",
    "C64_convolution_error",
    "C64_comparing_layers_add_no_error"
   ],
   "note": "Forward passes, of all thirteen layers and of whole models; finite numbers only (no overflow), and the library's exp and sqrt are taken to have a bounded relative error like the other operations. Rounding of backward passes, losses and optimizer steps is not modelled. The bounds for whole models exist but are not computed; explicit ones are given per layer."
  },
  {
   "property": "C65",
   "status": "proved",
   "theorems": [
    "C65_numbers_in_arguments",
    "C65_train_and_test_commands",
    "C65_no_epochs_saves_the_new_network",
    "C65_unwritable_file_is_not_noticed",
    "C65_arguments",
    "C65_missing_folder_throws",
    "C65_no_frequency_is_undefined",
    "C65_iris_data",
    "C65_mnist_data",
    "C65_cifar10_data",
    "C65_cifar100_data",
    "C65_without_tables_nothing_is_learned",
    "C65_finding_other_batch_sizes"
   ],
   "note": "Exact arithmetic; the loops of the data loader are bounded by a number the statement lets be as large as needed (S_Main.long_enough). The file system is a map from paths to bytes; a disk that fills up while a file is written is not modelled."
  },
  {
   "property": "C66",
   "status": "proved",
   "theorems": [
    "C66_separate_models_do_not_notice_each_other",
    "C66_separate_models_return_together",
    "C66_an_exception_stays_with_its_model",
    "C66_several_models_can_be_trained_in_any_order",
    "C66_ready_models_stay_ready",
    "C66_forward_uses_the_shared_parameters",
    "C66_building_leaves_other_models_alone",
    "C66_finding_order_of_building_matters",
    "C66_finding_shared_dropout"
   ],
   "note": "Exact arithmetic; calls on models come one after another (no threads). Findings: C66_finding_order_of_building_matters, C66_finding_shared_dropout."
  },
  {
   "property": "C67",
   "status": "proved",
   "theorems": [
    "C67_softmax_never_overflows",
    "C67_sigmoid_never_overflows",
    "C67_networks_stay_finite",
    "C67_finite_networks_are_rounded_evaluations",
    "C67_float_evaluations_exist",
    "C67_roundings",
    "C67_expressions_are_the_kernels",
    "C67_training_step_stays_finite",
    "C67_training_step_is_accurate",
    "C67_finding_confident_mistakes_destroy_the_weights",
    "C67_finding_nan_weights_stay",
    "C67_mlp_step_is_accurate",
    "C67_finding_mistakes_destroy_the_layers_before"
   ],
   "note": "Batch normalisation, convolution, pooling, dropout and all other layers are covered by the theorem on networks; training in floats is covered for multilayer perceptrons (Linear, ReLU, Softmax, cross entropy, SGD), not for other layers before the last Linear. The hypotheses on exp and log (S_Ieee: exp_ok, exp_near, exp_underflows, log_ok) are met by correctly rounded ones (exp_lib, log_lib). Signed zeros and NaN payloads are not modelled. Findings: C67_finding_confident_mistakes_destroy_the_weights, C67_finding_nan_weights_stay, C67_finding_mistakes_destroy_the_layers_before."
  },
  {
   "property": "C68",
   "status": "proved",
   "theorems": [
    "C68_activations_and_dropout_throw",
    "C68_finding_other_layers_do_not_check",
    "C68_finding_smaller_batches_leave_old_values",
    "C68_finding_batchnorm2d_mixes_batches",
    "C68_forward_keeps_shapes",
    "C68_linear_models_need_their_batch_size"
   ],
   "note": ""
  },
  {
   "property": "C69",
   "status": "proved",
   "theorems": [
    "C69_result_sizes",
    "C69_result_shapes",
    "C69_convolution_is_exact",
    "C69_convolution_is_padded_cross_correlation",
    "C69_maxpooling_is_exact",
    "C69_other_layers_are_exact",
    "C69_ordinary_windows_fit",
    "C69_finding_large_batches_are_undefined",
    "C69_finding_large_strides_are_undefined",
    "C69_finding_large_pooling_windows_are_undefined",
    "C69_finding_positions_are_rounded",
    "C69_models_are_exact",
    "C69_histories_are_exact",
    "C69_compiled_models_have_room"
   ],
   "note": "Values are exact (C64 and C67 are about rounding). Offsets computed in size_t stay unbounded (64-bit). Findings: C69_finding_large_batches_are_undefined, C69_finding_large_strides_are_undefined, C69_finding_large_pooling_windows_are_undefined, C69_finding_positions_are_rounded."
  },
  {
   "property": "C70",
   "status": "proved",
   "theorems": [
    "C70_expressions_are_the_steps",
    "C70_momentum_step_is_accurate",
    "C70_momentum_stays_finite",
    "C70_adam_step_is_accurate",
    "C70_adam_stays_finite",
    "C70_finding_lost_values_stay_lost",
    "C70_finding_adam_freezes",
    "C70_finding_one_large_gradient_freezes"
   ],
   "note": "std::pow is an argument: the corrections are any floats between a positive bound and 1. The bounds on Adam's averages are premises about beta and the bound on gradients (S_IeeeOpt.adam_room), met in C70_nonvacuous. Findings: C70_finding_lost_values_stay_lost, C70_finding_adam_freezes, C70_finding_one_large_gradient_freezes."
  },
  {
   "property": "C71",
   "status": "proved",
   "theorems": [
    "C71_expressions_are_the_kernels",
    "C71_gradients_are_accurate",
    "C71_classifier_gradients_are_accurate",
    "C71_finding_saturated_units_learn_nothing"
   ],
   "note": "The activations at which gradients are taken are those of the forward pass in floats (C67, C64 bound their distance from the exact ones). Finding: C71_finding_saturated_units_learn_nothing."
  },
  {
   "property": "C72",
   "status": "proved",
   "theorems": [
    "C72_expressions_are_the_kernels",
    "C72_training_in_parts",
    "C72_training_stays_finite",
    "C72_losses_stay_finite",
    "C72_iterations_are_accurate",
    "C72_momentum_training_stays_finite",
    "C72_momentum_losses_stay_finite",
    "C72_momentum_iterations_are_accurate",
    "C72_finite_until_a_confident_mistake",
    "C72_momentum_finite_until_a_confident_mistake",
    "C72_finding_training_never_recovers",
    "C72_bounds_grow_slowly"
   ],
   "note": "The bound on weights assumes the largest possible gradient at each iteration. Activations at which gradients are taken are those of the forward pass in floats. Finding: C72_finding_training_never_recovers. Convolutions, pooling, BatchNorm, Dropout and Adam are not in these theorems (C67 and C70 treat them one by one)."
  },
  {
   "property": "C73",
   "status": "proved",
   "theorems": [
    "C73_histories_are_bounded",
    "C73_steps_are_bounded",
    "C73_factors",
    "C73_scale_does_not_matter",
    "C73_finding_rare_gradients_move_more",
    "C73_finding_coefficients_without_a_bound"
   ],
   "note": "Exact real arithmetic, as in C29; the default coefficients are taken as 9/10 and 999/1000. Findings: C73_finding_rare_gradients_move_more, C73_finding_coefficients_without_a_bound."
  },
  {
   "property": "C74",
   "status": "proved",
   "theorems": [
    "C74_nearly_as_good_as_any_weights",
    "C74_moves_closer_to_better_weights",
    "C74_gradients_bound_the_loss_of_all_weights",
    "C74_zero_gradients_mean_smallest_loss",
    "C74_loss_decreases",
    "C74_converges_to_the_smallest_loss",
    "C74_total_loss_is_bounded",
    "C74_separable_samples_are_learnt",
    "C74_average_loss_on_separable_batches_vanishes",
    "C74_misclassifying_iterations_are_rare"
   ],
   "note": "Exact real arithmetic. The iteration composes the modelled kernels for a network of one Linear layer and Softmax with fresh tensors between the layers; networks with hidden layers are not convex and not covered."
  }
 ]
}