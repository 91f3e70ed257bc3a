{
 "claims": [
  {
   "property": "C01",
   "status": "proved",
   "theorems": [
    "portable_bytes_involutive",
    "portable_bytes_width",
    "portable_bytes_big_endian"
   ],
   "note": ""
  },
  {
   "property": "C02",
   "status": "proved",
   "theorems": [
    "half_codes_stable",
    "half_classes_kept",
    "half_store_idempotent",
    "half_negative_nan_stable_refuted"
   ],
   "note": "finding: negative NaN loses its sign when stored twice"
  },
  {
   "property": "C03",
   "status": "proved",
   "theorems": [
    "half_error_bound",
    "half_store_monotone"
   ],
   "note": ""
  },
  {
   "property": "C04",
   "status": "proved",
   "theorems": [
    "quarter_codes_stable_iff",
    "quarter_store_idempotent",
    "quarter_store_idempotent_bias12_refuted"
   ],
   "note": "exact characterisation for biases -111..126"
  },
  {
   "property": "C05",
   "status": "partial",
   "theorems": [
    "quarter_sign_preserved_refuted",
    "quarter_sign_partial"
   ],
   "note": "the claim is false for the code (finding); quarter_sign gives the exact boundary"
  },
  {
   "property": "C06",
   "status": "proved",
   "theorems": [
    "quarter_saturates",
    "quarter_error_bound",
    "quarter_store_monotone",
    "quarter_nan_stays_nan_refuted",
    "estimate_bias_best"
   ],
   "note": ""
  },
  {
   "property": "C07",
   "status": "proved",
   "theorems": [
    "text_decode_encode",
    "text_encode_injective",
    "text_decode_plain"
   ],
   "note": ""
  },
  {
   "property": "C08",
   "status": "proved",
   "theorems": [
    "text_encode_no_newline",
    "text_encode_no_delimiter",
    "text_encode_no_delimiter_any_refuted"
   ],
   "note": "exception needed when the delimiter is one of the six escape characters"
  },
  {
   "property": "C09",
   "status": "partial",
   "theorems": [
    "delimited_round_trip_partial",
    "delimited_round_trip_number_refuted",
    "delimited_round_trip_double_quote_refuted",
    "delimited_round_trip_outer_quote_refuted"
   ],
   "note": "false for texts that start like a number and contain the delimiter, for doubled quotes and outer quotes (findings); proved for all other fields"
  },
  {
   "property": "C10",
   "status": "proved",
   "theorems": [
    "delimited_next_record",
    "delimited_read_total"
   ],
   "note": ""
  },
  {
   "property": "C100",
   "status": "partial",
   "theorems": [
    "network_predicts_partial",
    "network_computes_partial",
    "dense_vertex_computes",
    "network_trains_partial",
    "forked_network_refuted",
    "clogged_network_refuted",
    "unchecked_shapes_refuted"
   ],
   "note": "In exact arithmetic. Holds when the shapes fit, no vertex feeds two others and nothing with several rows and several channels is flattened. Shapes are not checked when a network is built; a network that forks after a fully connected layer or a bias, and one that flattens a colour picture or the output of several filters, is built and predicts, but the first batch throws (refuted)."
  },
  {
   "property": "C101",
   "status": "partial",
   "theorems": [
    "task_network_predicts_partial",
    "task_network_trains_partial",
    "several_expected_refuted",
    "picture_beside_others_refuted"
   ],
   "note": "In exact arithmetic, without overflow of sizes. Holds for one picture of at least 3 by 3 in grey or colour, one other column, or several columns of one channel, and expected columns of one row. With several expected columns, and with a colour picture beside another column, the network is built and predicts but every training throws (refuted)."
  },
  {
   "property": "C102",
   "status": "partial",
   "theorems": [
    "label_prediction_partial",
    "number_prediction_partial",
    "number_in_range_partial",
    "prediction_below_average_refuted",
    "several_numbers_refuted"
   ],
   "note": "In exact arithmetic, for the columns of C101. Predictions of labels are distributions and all others lie between 0 and 1. Shown as numbers they stay in the range of the column when its deviation is at most 1. A column of numbers that are not negative and deviate by more than 1 can never be predicted below its average, and the predictions for a column of several numbers each all have the same sum (refuted)."
  },
  {
   "property": "C103",
   "status": "partial",
   "theorems": [
    "knowledge_restored_partial",
    "saved_network_predicts_the_same_partial",
    "task_network_reloads_partial"
   ],
   "note": "Full statement: every network. Proved, in exact arithmetic and with tensor files as modelled for the tensors, for networks that are described depth first and in which every layer leads to an output, and for every network made for a task with the columns of C101 whose sizes fit into size_t. In other orders the layers are numbered anew and look for files of other layers (layer_by_layer_refuted, C55); a layer that leads nowhere is not saved again (dead_end_saving_refuted, C54)."
  },
  {
   "property": "C104",
   "status": "partial",
   "theorems": [
    "training_follows_gradient_partial",
    "each_parameter_descends_partial",
    "training_lowers_cost_partial",
    "mae_training_raises_error_refuted"
   ],
   "note": "Full statement: every network and the number its loss stands for. Proved, in exact arithmetic, for networks of fully connected layers with any activation but softmax and the approximated sigmoid, biases, regularization, dropout, flattening and concatenation, that do not fork, with records that meet no rectifier at its kink. The numbers are: for mse the squares, for smae and categorical cross-entropy half the squares, for binary cross-entropy the cross-entropy; for mae minus half the squares, so that training with mae raises the error. Missing: convolutions, normalization, clipping, softmax, forks (which do not train, C100), and the cross-entropy and absolute error themselves."
  },
  {
   "property": "C105",
   "status": "partial",
   "theorems": [
    "classifier_step_partial",
    "positive_scores_learn_partial",
    "negative_scores_unlearn_refuted"
   ],
   "note": "Full statement: every classifier moves against the gradient of the cross-entropy. Refuted: the derivative of softmax is its input (softmax_activation_function.hpp:29-32), so the error of each label is multiplied by its score before it reaches the weights. Proved for the output layer of every network without forks and for batches of any size: each weight and bias moves by minus the learning rate times the mean of score times partial derivative of the cross-entropy. A classifier of one layer whose scores are all negative for a record has a higher cross-entropy for that record after any small enough step; with positive scores it has a lower one. Missing: scores of both signs for the step of the whole network, and what the layers before the output layer get. Exact arithmetic."
  },
  {
   "property": "C106",
   "status": "proved",
   "theorems": [
    "float_multiply",
    "float_dense",
    "float_error_linear",
    "overflow_on_the_way_refuted"
   ],
   "note": "IEEE 754 binary32 arithmetic (Flocq), NaN and infinities included, operations not fused. The condition that nothing overflows is about the sum of the sizes; that the exact result is in range is not enough, see overflow_on_the_way_refuted."
  },
  {
   "property": "C107",
   "status": "proved",
   "theorems": [
    "float_softmax_works",
    "float_softmax_not_a_number"
   ],
   "note": "The exponential function of the C library is any function that keeps NaN, is never negative, at most 1 up to 0 and 1 at 0, and, for the order, monotone; the correctly rounded one is shown to be such a function. Scores softmax cannot work with (one NaN, one plus infinity, or only minus infinities) make every probability NaN."
  },
  {
   "property": "C108",
   "status": "proved",
   "theorems": [
    "float_sigmoid_works",
    "float_tanh_approx_works",
    "float_relu_works",
    "float_leaky_works",
    "float_sigmoid_approx_works",
    "infinite_activation_refuted"
   ],
   "note": "The last sentence is refuted for leaky ReLU and the approximation of sigmoid, which make NaN of infinities (0 * inf, inf / inf). The default tanh is the C library's and is not described."
  },
  {
   "property": "C109",
   "status": "proved",
   "theorems": [
    "float_prediction",
    "clear_choice",
    "faithful_activations"
   ],
   "note": "All layers are covered; the bounds behind a normalization follow from the size of an element that each tensor it normalizes has, as exact tensors can be made of zeros only and are then divided by zero (C113). For outputs with softmax the scores are shown to be near here, and the probabilities in C111; inside the network softmax is covered with the hypothesis faithful_softmax, which C111 shows. The accuracy of exp and of tanh of the C library are hypotheses where they are used (the correctly rounded exp meets that for exp); with them all activation functions are shown to be faithful."
  },
  {
   "property": "C11",
   "status": "partial",
   "theorems": [
    "write_then_read_lines",
    "directory_lines_complete_partial",
    "directory_lines_prefix",
    "directory_lines_complete_refuted",
    "directory_lines_header_refuted"
   ],
   "note": "false when a file has no line to deliver (finding); proved otherwise, and a prefix is delivered always"
  },
  {
   "property": "C110",
   "status": "proved",
   "theorems": [
    "float_label",
    "clear_label"
   ],
   "note": "That the exponential function of the C library is monotone, gives 1 for 0 and resolves the gap are hypotheses; the correctly rounded one meets them for gaps from 2^-19 on."
  },
  {
   "property": "C111",
   "status": "proved",
   "theorems": [
    "float_probabilities",
    "softmax_factor_small",
    "probabilities_of_near_scores",
    "float_prediction_probabilities"
   ],
   "note": "That the exponential function of the C library is accurate, gives 1 for 0, nothing negative and at most 1 up to 0 are hypotheses; the correctly rounded one meets them."
  },
  {
   "property": "C112",
   "status": "partial",
   "theorems": [
    "float_adam_gives_numbers",
    "float_adam_step_is",
    "float_adam_moments",
    "float_momentum_is_bounded",
    "float_momentum_step_is",
    "float_descent_is",
    "adam_stops_refuted"
   ],
   "note": "All but the last sentence holds, with a constant learning rate (decaying momentum off) and 32-bit storage. Refuted: after one gradient of 2^64 or more the squared-gradient moment is infinite and Adam never changes the parameter again."
  },
  {
   "property": "C113",
   "status": "partial",
   "theorems": [
    "normalization_is_bounded",
    "float_normalization_follows",
    "float_normalization_is_close",
    "float_normalization_of_one",
    "normalization_divides_by_zero_refuted",
    "normalization_overflow_refuted"
   ],
   "note": "All but the last sentence holds. Refuted: the elements 0 and 2^-149 become NaN and infinity, since the deviation is not 0 as a double but 0 as a float; and the largest float with its negative becomes infinite, since the difference to the mean is not a float any more."
  },
  {
   "property": "C114",
   "status": "partial",
   "theorems": [
    "complete_fields_are_answered",
    "incomplete_fields_are_explained",
    "advice_names",
    "fields_in_any_case",
    "nothing_to_run",
    "unknown_fields_are_listed_refuted",
    "encoding_error_names_the_field_refuted"
   ],
   "note": "All but the last sentence holds. Refuted: if every column has a field, further fields are ignored without a word, although they are listed as invalid when a column lacks its field; and the error about a value that is no number says what the value is but not which field has it. The order in which an unordered_map is enumerated is arbitrary; what the prediction prints is any function of the tensors."
  },
  {
   "property": "C115",
   "status": "partial",
   "theorems": [
    "float_normalised_column_survives",
    "float_normalised_column_fills",
    "float_standardised_number_survives",
    "float_scaling_keeps_order",
    "large_numbers_collapse",
    "float_column_statistics",
    "float_column_usable",
    "float_standardised_column_survives",
    "float_column_keeps_order",
    "float_constant_column_is_lost",
    "distinct_numbers_stay_distinct_refuted"
   ],
   "note": "All but the last sentence holds. The sizes of mean and deviation are proved for columns of up to 2^20 numbers that are not all the same. Refuted: standardised numbers are normalised with the least number before standardising; if that is at least 2^27 times as large as the standardised numbers, all numbers of the column are stored as the same one. The times 1600000000 and 1700000000 are both stored as -16 and shown as 1650000000."
  },
  {
   "property": "C116",
   "status": "partial",
   "theorems": [
    "float_difference_derivatives",
    "float_absolute_derivatives",
    "float_bce_passes_back",
    "float_bce_corrects_labels",
    "saturated_predictions_learn_refuted",
    "float_bce_loss",
    "float_cce_loss",
    "float_mean_between",
    "float_mae_loss",
    "float_mse_loss",
    "rounded_log_accurate"
   ],
   "note": "All but the last sentence holds (predictions below 2^-100 excepted); nothing is shown about the value of the smooth absolute error. Refuted: with an exponential function that is accurate to one half, scores of 20 and more give exactly 1 and scores of -100 and less give exactly 0; the slope of the sigmoid is then exactly 0 and 0 is passed back whatever the truth is, so the worst mistakes are never corrected. The absolute error passes back truth minus prediction, the opposite of its derivative's direction (see C48). logf, powf and expf are arbitrary functions with the accuracy named."
  },
  {
   "property": "C117",
   "status": "partial",
   "theorems": [
    "picture_shape",
    "brighter_pixels_look_brighter",
    "brightest_spot_is_full",
    "uniform_picture_is_uniform",
    "uniform_pictures_look_uniform_refuted",
    "two_channels_are_shown_refuted",
    "picture_with_NaN_refuted"
   ],
   "note": "All but the last three sentences holds (two characters are compared if both stand for two rows, or both for the last one). A picture of one colour is shown in one shade if the number of rows is even. Refuted: the mean of two rows is divided by two again, that of a last single row is not, so the last line of an odd number of rows is shown twice as bright; a picture with two channels is blank whatever it holds; and a single NaN makes the index of the character an undefined conversion."
  },
  {
   "property": "C118",
   "status": "proved",
   "theorems": [
    "bad_gradient_is_never_forgotten",
    "bad_record_spoils_layer",
    "constant_column_spoils_layer",
    "float_constant_column_is_lost",
    "nan_passes_activations"
   ],
   "note": "One layer without bias and activation, trained with batches of one record; the optimizers for one parameter and any gradients."
  },
  {
   "property": "C12",
   "status": "proved",
   "theorems": [
    "file_sort_result",
    "file_sort_chunk_independent",
    "file_sort_failure_reported_refuted"
   ],
   "note": "finding: unreadable chunk files give an empty result reported as success"
  },
  {
   "property": "C13",
   "status": "proved",
   "theorems": [
    "replace_all_replaces_leftmost",
    "replaced_deterministic",
    "replace_all_unchanged"
   ],
   "note": ""
  },
  {
   "property": "C14",
   "status": "proved",
   "theorems": [
    "tokens_keep_text",
    "tokens_keep_tidy_text",
    "tokens_have_shape",
    "tokens_chunk_independent",
    "tokens_keep_every_text_refuted"
   ],
   "note": "text is kept up to the documented normalisation; exact text is not kept (finding)"
  },
  {
   "property": "C15",
   "status": "partial",
   "theorems": [
    "split_is_partition_partial",
    "sample_is_part",
    "split_size_bounded_refuted"
   ],
   "note": "the requested size, computed in float, can exceed the list above 2^24 samples (finding)"
  },
  {
   "property": "C16",
   "status": "proved",
   "theorems": [
    "bpe_decode_encode",
    "bpe_decode_encode_table",
    "bpe_decode_encode_small_delimiter_refuted"
   ],
   "note": "delimiter at least 127 (default 256), at most 32641 training calls; false for smaller delimiters (finding)"
  },
  {
   "property": "C17",
   "status": "proved",
   "theorems": [
    "bpe_encode_not_longer",
    "bpe_encode_not_longer_table"
   ],
   "note": ""
  },
  {
   "property": "C18",
   "status": "proved",
   "theorems": [
    "bpe_save_load",
    "bpe_load_cut_file",
    "bpe_load_largest_code_refuted",
    "bpe_load_replaces_refuted"
   ],
   "note": "findings: the largest code is not restored; loading into a used model appends"
  },
  {
   "property": "C19",
   "status": "partial",
   "theorems": [
    "bpe_training_result_partial",
    "bpe_training_codes_new",
    "bpe_training_terminates",
    "bpe_training_defined",
    "bpe_training_padding_code_refuted",
    "bpe_train_on_file_codes_new_refuted"
   ],
   "note": "the reserved padding code can be assigned by repeated training, and training on a file after loading reuses codes (findings)"
  },
  {
   "property": "C20",
   "status": "proved",
   "theorems": [
    "trie_search",
    "trie_match",
    "trie_lookup",
    "trie_starts_with"
   ],
   "note": ""
  },
  {
   "property": "C21",
   "status": "proved",
   "theorems": [
    "trie_complete"
   ],
   "note": ""
  },
  {
   "property": "C22",
   "status": "proved",
   "theorems": [
    "lru_check_then_insert",
    "lru_zero_capacity_refuted",
    "lru_capacity_any_use_refuted"
   ],
   "note": "proved for the check-then-insert use the code makes; capacity 0 and re-inserting a contained key are findings"
  },
  {
   "property": "C23",
   "status": "proved",
   "theorems": [
    "writer_cache_disabled",
    "writer_deduplicates",
    "writer_keeps_different_rows_refuted"
   ],
   "note": "finding: rows with equal given values but different expected values are dropped"
  },
  {
   "property": "C24",
   "status": "proved",
   "theorems": [
    "dataset_round_trip",
    "label_values_exact",
    "dataset_zero_size_rows_refuted",
    "renormalise_own_column_refuted"
   ],
   "note": "image columns: the pixel conversion is any function here, see C65; findings on empty shapes and re-scaling"
  },
  {
   "property": "C25",
   "status": "proved",
   "theorems": [
    "dataset_cut_after_header",
    "dataset_cut_in_header_refuted"
   ],
   "note": "a cut inside the header is a finding"
  },
  {
   "property": "C26",
   "status": "proved",
   "theorems": [
    "tensor_save_load",
    "tensor_file_layout",
    "tensor_file_elements",
    "half_tensor_save_load"
   ],
   "note": ""
  },
  {
   "property": "C27",
   "status": "proved",
   "theorems": [
    "shuffler_orders",
    "in_memory_epoch",
    "shared_shuffler_epoch",
    "binary_epoch"
   ],
   "note": ""
  },
  {
   "property": "C28",
   "status": "proved",
   "theorems": [
    "split_partition",
    "split_nine_to_one",
    "split_whole_file_refuted",
    "read_past_rows_undefined",
    "search_split_disjoint_refuted",
    "split_mixed_refuted"
   ],
   "note": "for every split below 1; findings: split 1.0 over-counts above 2^24 rows; search uses overlapping parts; split shuffler unused"
  },
  {
   "property": "C29",
   "status": "partial",
   "theorems": [
    "overlap_report_sound",
    "overlap_of_two_columns_reported_partial",
    "overlap_of_one_column_refuted",
    "overlap_empty_group_refuted"
   ],
   "note": "the code misses groups that share exactly one column: refuted with a witness; overlaps of two adjacent columns are proved to be reported"
  },
  {
   "property": "C30",
   "status": "proved",
   "theorems": [
    "columns_moved_keep_values",
    "short_record_undefined"
   ],
   "note": "records at least as long as declared; a shorter record is read out of bounds (proved)"
  },
  {
   "property": "C31",
   "status": "proved",
   "theorems": [
    "label_one_hot",
    "label_round_trip",
    "label_unknown_throws",
    "decode_best_is_maximum",
    "file_labels_complete",
    "file_labels_two_columns_refuted"
   ],
   "note": "finding: a label group over two source columns takes its labels from the first only"
  },
  {
   "property": "C32",
   "status": "proved",
   "theorems": [
    "scaling_undone",
    "rescaling_is_scaling",
    "constant_column_is_nan"
   ],
   "note": "exact arithmetic; finding: a constant column is stored as NaN (proved in binary32)"
  },
  {
   "property": "C33",
   "status": "proved",
   "theorems": [
    "streamed_statistics",
    "view_mean_refuted"
   ],
   "note": "exact arithmetic; finding: the standardising view's own mean is wrong"
  },
  {
   "property": "C34",
   "status": "partial",
   "theorems": [
    "normalised_in_unit_interval_partial",
    "normalised_float_in_unit_interval",
    "normalised_in_unit_interval_refuted"
   ],
   "note": "holds for columns with deviation at most 1 that are not constant; refuted for standardised columns"
  },
  {
   "property": "C35",
   "status": "proved",
   "theorems": [
    "lex_correct",
    "lex_splitting_unique",
    "lex_partition",
    "lex_token_values",
    "lex_minus_refuted",
    "lex_dot_never",
    "lex_trailing_backslash_refuted"
   ],
   "note": "Findings: a minus sign is a syntax error, a lone dot is a number token, a text ending with a backslash cannot be written."
  },
  {
   "property": "C36",
   "status": "proved",
   "theorems": [
    "parse_accepts",
    "script_unique",
    "parse_total",
    "parse_errors_escape_refuted",
    "parse_surprises_refuted"
   ],
   "note": "Grammar equivalence, totality and error classification for every script. Findings: incomplete scripts make exceptions escape; help swallows the next word; '://' is not checked; fractions of a limit are dropped."
  },
  {
   "property": "C37",
   "status": "partial",
   "theorems": [
    "block_in_order_partial",
    "block_complete_run",
    "parse_error_runs_nothing",
    "exit_ends_session",
    "exit_runs_on_refuted",
    "files_go_on_refuted",
    "blank_line_refuted",
    "continued_lines"
   ],
   "note": "Order and stop at the first failure proved; exit ends the script is refuted: later statements run. Findings: following script files run after a failure; a blank interactive line is undefined behaviour."
  },
  {
   "property": "C38",
   "status": "proved",
   "theorems": [
    "string_literal_value",
    "stands_for_unique",
    "string_literal_texts"
   ],
   "note": "Exactly the texts not ending with a backslash can be written."
  },
  {
   "property": "C39",
   "status": "partial",
   "theorems": [
    "transpose_twice",
    "rotate_twice",
    "reshape_keeps_order",
    "flatten_places",
    "flatten_then_reshape_partial",
    "flatten_then_reshape_channels_refuted",
    "windows_of_concat",
    "concat_of_windows",
    "window_accepts",
    "channel_view",
    "zero_pad_frames",
    "materialize_copies",
    "views_stay_inside",
    "row_values_channel_refuted",
    "unchecked_channels_refuted",
    "diagonal_of_vector_refuted"
   ],
   "note": "Proved for one channel and for every view with in-range use. Refuted parts: a flattened tensor of several channels cannot be reshaped back, channel counts and the channel offset are not checked by some views, getRowValues ignores its channel, the diagonal view of a vector keeps its first element only."
  },
  {
   "property": "C40",
   "status": "proved",
   "theorems": [
    "product_is_the_sum",
    "dot_product_is_the_sum",
    "outer_product_is_the_product",
    "product_associative",
    "product_distributes",
    "product_transposed"
   ],
   "note": "Over an arbitrary commutative ring, so rounding is out of scope."
  },
  {
   "property": "C41",
   "status": "proved",
   "theorems": [
    "inverse_correct",
    "inverse_correct_rationals",
    "inverse_not_square_refuted"
   ],
   "note": "Over an arbitrary field. The width of the matrix is not checked (refuted part recorded)."
  },
  {
   "property": "C42",
   "status": "partial",
   "theorems": [
    "full_convolution_shape",
    "valid_correlation_is_the_sum",
    "full_convolution_is_the_sum_partial",
    "conv_forward_is_the_sum",
    "conv_weight_gradient_partial",
    "conv_input_gradient_partial",
    "conv_gradient_channels_refuted",
    "conv_gradient_kernel_refuted"
   ],
   "note": "Shapes and sums are proved for kernels up to 3 and one input channel. Refuted: kernels of 4 and more always throw in the backward pass, and with several input channels the gradient has one channel."
  },
  {
   "property": "C43",
   "status": "partial",
   "theorems": [
    "masked_select_above_partial",
    "masked_select_below_refuted",
    "masked_select_refuted"
   ],
   "note": "The selection is right where the condition holds; elsewhere it is wrong, with counterexamples."
  },
  {
   "property": "C44",
   "status": "partial",
   "theorems": [
    "divide_elements_partial",
    "matrix_divide_refuted"
   ],
   "note": "Element division is right; the matrix division is refuted."
  },
  {
   "property": "C45",
   "status": "proved",
   "theorems": [
    "sum_is_the_sum",
    "product_is_the_product",
    "max_is_the_largest",
    "min_is_the_smallest",
    "range_is_min_and_max",
    "index_of_max_by_row",
    "index_of_max_by_col",
    "index_of_min",
    "indices_of_max",
    "indices_of_min",
    "top_indices_are_the_largest",
    "mean_is_the_average",
    "standard_deviation_is_the_root_of_the_variance",
    "variance_is_the_variance",
    "norm_is_the_root_of_the_squares",
    "norm_of_zero_refuted",
    "geometric_mean_is_the_root_of_the_product",
    "geometric_mean_needs_positive"
   ],
   "note": "Comparisons on IEEE floats, sums and means in exact arithmetic. Finding: the Euclidean norm of a tensor of zeros is NaN."
  },
  {
   "property": "C46",
   "status": "proved",
   "theorems": [
    "softmax_formula",
    "softmax_is_a_distribution",
    "softmax_shift_invariant",
    "softmax_keeps_order"
   ],
   "note": "Exact real arithmetic."
  },
  {
   "property": "C47",
   "status": "partial",
   "theorems": [
    "activation_elementwise",
    "activation_range_and_order",
    "tanh_approx_exact",
    "activation_derivative_partial",
    "sigmoid_approx_derivative_refuted",
    "activation_backward_single",
    "activation_backward_batch"
   ],
   "note": "Exact real arithmetic. Refuted: the derivative of the approximate sigmoid is right only at +-1/2; the softmax layer multiplies by its input instead of using a derivative."
  },
  {
   "property": "C48",
   "status": "partial",
   "theorems": [
    "mse_measures_the_error",
    "mse_gradient",
    "mse_descends",
    "mae_measures_the_error_partial",
    "mae_descends_refuted",
    "mae_gradient_refuted",
    "smae_measures_the_error_partial",
    "smae_is_smooth_absolute_error_refuted",
    "smae_gradient",
    "smae_descends",
    "bce_measures_the_error",
    "bce_gradient",
    "bce_descends",
    "cce_measures_the_error",
    "cce_descends",
    "cce_of_softmax_gradient",
    "cce_through_softmax_layer_refuted"
   ],
   "note": "Exact real arithmetic. Holds for the squared, smooth, binary and categorical losses. Refuted: every step against the derivative of the mean absolute error increases it; the smooth loss is not the documented one for errors above 1; behind a softmax layer the categorical loss can increase with every step."
  },
  {
   "property": "C49",
   "status": "proved",
   "theorems": [
    "stopping_rule",
    "reported_reason_holds",
    "training_ends",
    "stops_when_out_of_patience"
   ],
   "note": "Binary32 losses; the improvement tolerance must be finite and not negative."
  },
  {
   "property": "C50",
   "status": "partial",
   "theorems": [
    "epoch_in_batches",
    "epoch_completes",
    "number_of_updates",
    "bad_batch_size",
    "batch_size_zero_refuted",
    "epoch_loss_average_partial",
    "epoch_loss_last_batch_refuted"
   ],
   "note": "Batches and updates for every size; the epoch loss is the average only if the batch size divides the number of records (exact arithmetic), refuted otherwise. A batch size of zero divides by zero."
  },
  {
   "property": "C51",
   "status": "proved",
   "theorems": [
    "best_network_kept",
    "last_network_kept",
    "training_terminates",
    "no_best_network_refuted"
   ],
   "note": "Holds for every history with a loss below infinity; otherwise there is no checkpoint to load (no_best_network_refuted)."
  },
  {
   "property": "C52",
   "status": "partial",
   "theorems": [
    "prediction_computes_the_values_partial",
    "predictions_are_independent",
    "wrong_number_of_inputs",
    "failed_prediction_refuted"
   ],
   "note": "All but the last clause: after a layer threw, tensors stay on the connections and the next prediction uses them (failed_prediction_refuted)."
  },
  {
   "property": "C53",
   "status": "partial",
   "theorems": [
    "errors_are_sent_back_partial",
    "error_average_refuted",
    "fork_average_refuted"
   ],
   "note": "With one consumer the error is passed on; with several the last error to arrive is counted twice, so it is not the average."
  },
  {
   "property": "C54",
   "status": "partial",
   "theorems": [
    "every_layer_is_saved_and_loaded_partial",
    "dead_end_saving_refuted"
   ],
   "note": "Every history of saves, loads and trainings, for networks in which every node leads to an output; otherwise false. Interrupted operations are not modelled."
  },
  {
   "property": "C55",
   "status": "partial",
   "theorems": [
    "saved_model_reloads_partial",
    "build_succeeds",
    "saved_records_complete",
    "layer_files_distinct",
    "layer_by_layer_refuted",
    "inputs_first_refuted",
    "skip_connection_refuted",
    "joins_reordered_refuted",
    "tiny_rates_refuted"
   ],
   "note": "Full statement: every network. Proved for every program that adds vertices depth first and names joined parents in order; refuted for other creation orders, for connections past a layer and for rates below half of 10^-15. Every program: the file lists every vertex and edge once, and no two weights share a file."
  },
  {
   "property": "C56",
   "status": "partial",
   "theorems": [
    "save_replaces",
    "save_crash_partial",
    "save_crash_refuted",
    "half_saved_task_refuted"
   ],
   "note": "Full statement is false: whatever is saved over, there is a crash point with nothing left (refuted), and a task with an empty description is taken for complete (refuted). Proved: an uninterrupted save leaves exactly the new model; at every crash point everything outside the folder is untouched."
  },
  {
   "property": "C57",
   "status": "proved",
   "theorems": [
    "parameters_are_counted_once",
    "reachable_is_node"
   ],
   "note": "Also with cycles; in natural numbers, the code's sum is modulo 2^64."
  },
  {
   "property": "C58",
   "status": "partial",
   "theorems": [
    "search_rounds",
    "search_ends_partial",
    "search_with_factor_one_refuted",
    "factor_below_one",
    "elimination_keeps_the_worst_refuted",
    "the_best_is_eliminated_refuted"
   ],
   "note": "The search ends for every factor of at least two (not for one); each elimination keeps the configurations with the largest losses (refuted)."
  },
  {
   "property": "C59",
   "status": "partial",
   "theorems": [
    "search_ends_accurate_partial",
    "search_ends_refuted",
    "search_after_failures_refuted",
    "grid_is_distinct"
   ],
   "note": "Full statement is false: without an accurate attempt on the whole data the search never ends, and if every attempt throws it takes the front of an empty vector. Proved: if it ends, the saved network is the one that reached the target on the whole data."
  },
  {
   "property": "C60",
   "status": "proved",
   "theorems": [
    "execute_uses_all_inputs"
   ],
   "note": ""
  },
  {
   "property": "C61",
   "status": "partial",
   "theorems": [
    "fitting_row_aligned_partial",
    "header_and_first_row_aligned",
    "later_row_aligned_refuted"
   ],
   "note": "header, first row and every row whose texts fit; refuted for later rows with longer texts"
  },
  {
   "property": "C62",
   "status": "partial",
   "theorems": [
    "one_hot_bpe_partial",
    "one_hot_bpe_boundary",
    "one_hot_trained_model",
    "one_hot_loaded_model_refuted",
    "one_hot_characters",
    "one_hot_characters_high_byte",
    "one_hot_words",
    "pad_or_truncate_spec"
   ],
   "note": "proved for freshly trained models and ASCII text; findings: undefined behaviour at code = size (loaded models) and for bytes from 128 on"
  },
  {
   "property": "C63",
   "status": "partial",
   "theorems": [
    "txt_split_loses_no_word",
    "txt_split_words_partial",
    "txt_split_record_length",
    "txt_split_words_refuted",
    "txt_split_empty_record"
   ],
   "note": "nothing lost, order and length limit hold for every text; exactly-once refuted: sentence-ending words near the limit are written twice"
  },
  {
   "property": "C64",
   "status": "partial",
   "theorems": [
    "query_numbers_same_values_partial",
    "query_square_numbers_same_tensor",
    "query_labels_same_values",
    "query_labels_same_tensor_refuted",
    "query_images_refuted"
   ],
   "note": "same values in the same order for numbers and labels; refuted: label queries have transposed shape, image queries are not divided by 255"
  },
  {
   "property": "C65",
   "status": "proved",
   "theorems": [
    "pixel_store_defined",
    "pixel_store_twice",
    "pixel_store_error",
    "pixel_store_clamps"
   ],
   "note": ""
  },
  {
   "property": "C66",
   "status": "partial",
   "theorems": [
    "ids_are_different",
    "adam_state_is_per_layer",
    "momentum_state_is_per_layer_partial",
    "filters_share_momentum_refuted"
   ],
   "note": "Exact arithmetic, decaying momentum off: every change is a function of the gradients given with the same id, and ids differ. Refuted for the filters of one convolution, which share an id."
  },
  {
   "property": "C67",
   "status": "proved",
   "theorems": [
    "embed_tokens_spec"
   ],
   "note": ""
  },
  {
   "property": "C68",
   "status": "partial",
   "theorems": [
    "time_limit_refuted"
   ],
   "note": "Refuted: the strategy is given the duration of the last epoch, because reading the timer restarts it."
  },
  {
   "property": "C69",
   "status": "partial",
   "theorems": [
    "second_training_refuted"
   ],
   "note": "Refuted: the strategy remembers the best epoch of the earlier training, and the second training throws in its first epoch unless that beats it."
  },
  {
   "property": "C70",
   "status": "partial",
   "theorems": [
    "best_network_kept",
    "last_network_kept",
    "training_report_partial",
    "last_policy_report_refuted"
   ],
   "note": "Right for the best policy; with the last policy the report is that of the best epoch."
  },
  {
   "property": "C71",
   "status": "partial",
   "theorems": [
    "every_layer_is_updated_once_partial",
    "updates_follow_every_way",
    "shared_layer_update_refuted"
   ],
   "note": "Holds when no node feeds two others; otherwise apply is called once per path and a shared fully connected or bias layer throws."
  },
  {
   "property": "C72",
   "status": "partial",
   "theorems": [
    "errors_are_sent_back_partial",
    "dead_end_refuted"
   ],
   "note": "Holds when every node leads to an output; a node that also feeds a dead end never gets an error."
  },
  {
   "property": "C73",
   "status": "partial",
   "theorems": [
    "the_best_model_is_returned_partial",
    "single_configuration_refuted"
   ],
   "note": "With at least two configurations; with one the search returns no model."
  },
  {
   "property": "C74",
   "status": "proved",
   "theorems": [
    "configurations_are_different",
    "all_configurations_different",
    "configurations_fit",
    "configurations_as_asked",
    "batch_sizes_fit"
   ],
   "note": "Configurations as drawn; random draws are quantified."
  },
  {
   "property": "C75",
   "status": "partial",
   "theorems": [
    "sgd_changes_partial",
    "adam_step_is_bounded",
    "rates_stay_in_range",
    "decaying_rate_grows_refuted",
    "adam_first_step_refuted",
    "batch_is_not_averaged_refuted"
   ],
   "note": "Gradient descent steps and the range of adjusted rates hold, and no step of Adam is longer than 7.3 learning rates; Adam's first step is over three times the learning rate, the rate of decaying momentum grows, a convolution adds the steps of a batch instead of averaging."
  },
  {
   "property": "C76",
   "status": "partial",
   "theorems": [
    "fc_input_gradient",
    "fc_weight_gradient",
    "bias_gradient",
    "concat_gradient",
    "concat_refuses",
    "flatten_gradient_partial",
    "flatten_channels_refuted",
    "flatten_single_row_refuted"
   ],
   "note": "Exact arithmetic. Fully connected, bias, concatenation, and flattening of one channel; with several channels flattening hands back an exception (refuted), so such a network cannot be trained."
  },
  {
   "property": "C77",
   "status": "proved",
   "theorems": [
    "fc_batch_descends",
    "fc_several_inputs",
    "bias_batch_descends",
    "nothing_to_apply"
   ],
   "note": "Exact arithmetic; fully connected and bias layers (convolutions: C75)."
  },
  {
   "property": "C78",
   "status": "partial",
   "theorems": [
    "dropout_drops_nothing_refuted",
    "dropout_prediction_refuted",
    "dropout_rates_partial"
   ],
   "note": "Refuted: the mask is all ones whatever the random numbers, and predictions are multiplied by 1/(1-rate)."
  },
  {
   "property": "C79",
   "status": "partial",
   "theorems": [
    "normalization_is_affine_partial",
    "normalization_centre_refuted",
    "normalization_gradient_refuted"
   ],
   "note": "Order is kept and the deviation is positive; the mean used is not the mean, and the error handed back is not the derivative."
  },
  {
   "property": "C80",
   "status": "partial",
   "theorems": [
    "joined_inputs_in_order_partial",
    "joined_out_of_order_refuted",
    "joined_join_refuted"
   ],
   "note": "Full statement: every concatenation. Proved when the parents are inputs named in order of creation; refuted otherwise."
  },
  {
   "property": "C81",
   "status": "proved",
   "theorems": [
    "best_combinations_kept",
    "whole_data_reached"
   ],
   "note": "For rounds in which no attempt throws or has an accuracy that is not a number."
  },
  {
   "property": "C82",
   "status": "partial",
   "theorems": [
    "no_overwrite_keeps_old_partial",
    "no_overwrite_refuted"
   ],
   "note": "The old files are kept at every crash point; the new model is split over two folders and cannot be loaded (refuted)."
  },
  {
   "property": "C83",
   "status": "partial",
   "theorems": [
    "categorical_accuracy_partial",
    "category_right_iff",
    "accuracy_of_many_refuted",
    "accuracy_of_none_refuted"
   ],
   "note": "For 1 to 2^24 tested records. Beyond, the float counters stop: a network that is right on half of 2^25 records is reported as always right; with no records the accuracy is NaN (refuted)."
  },
  {
   "property": "C84",
   "status": "partial",
   "theorems": [
    "binary_accuracy_partial",
    "binary_accuracy_outputs_partial",
    "binary_accuracy_refuted",
    "binary_accuracy_two_outputs_refuted",
    "accuracy_of_none_refuted"
   ],
   "note": "For one output with one element, and n outputs of n elements. Of a larger output only the first element is compared, and with two outputs of one element the call throws (refuted)."
  },
  {
   "property": "C85",
   "status": "partial",
   "theorems": [
    "bag_counts_partial",
    "threads_cover_tensor",
    "last_thread_decides_refuted",
    "maximum_of_threads_refuted"
   ],
   "note": "The counts are right for every size and every order of threads. The values are not: from 10^8 elements a bag that the last thread has no element for is reset to 0, so the maximum of a row of 1.0 and a row of 100.0 is 1 or 100 (refuted)."
  },
  {
   "property": "C86",
   "status": "partial",
   "theorems": [
    "quarters_are_order_statistics_partial",
    "bag_value",
    "ten_to_ninety_partial",
    "ten_to_ninety_refuted",
    "ninety_percent_refuted",
    "no_numbers_refuted"
   ],
   "note": "For one thread and when no code stands for numbers of different signs: quarters are right up to rounding. The 50 and 90 percent values are too high when one code holds most elements, and a tensor without finite elements reads the front of an empty vector (refuted)."
  },
  {
   "property": "C87",
   "status": "partial",
   "theorems": [
    "recommended_window_partial",
    "recommended_covers_partial",
    "recommended_fits_partial",
    "recommended_covers_refuted"
   ],
   "note": "For one thread, the fit of all elements with 0, and no code with numbers of different signs: bias and offset are determined exactly; also for the fits of all and of 50 percent, with and without 0, if different numbers have different codes. Refuted otherwise: of -15, 1 and 30700 the last falls outside."
  },
  {
   "property": "C88",
   "status": "partial",
   "theorems": [
    "initial_weights_bounded",
    "xavier_variance_refuted",
    "random_tensor_bounded_partial",
    "random_tensor_of_one_value_refuted"
   ],
   "note": "Weights are numbers within the bounds, with rounding. The variance is at most 26 hundredths of that of the scheme (refuted); random tensors are bounded when the difference of the bounds is a float, and NaN when the bounds are equal (refuted)."
  },
  {
   "property": "C89",
   "status": "partial",
   "theorems": [
    "neurons_differ_partial",
    "layers_differ_partial",
    "layers_differ_sgd_refuted",
    "filters_differ_refuted",
    "far_seeds_refuted"
   ],
   "note": "Neurons and layers differ in exact arithmetic with the optimizers other than sgd. With sgd layers of the same shape start identical; consecutive convolutions share filters; seeds repeat modulo 12345689 (all refuted)."
  },
  {
   "property": "C90",
   "status": "partial",
   "theorems": [
    "create_dataset_keeps_files_partial",
    "create_dataset_keeps_source",
    "neighbours_lost_refuted",
    "text_source_refuted",
    "text_source_destroys_refuted"
   ],
   "note": "For csv sources: all files but the temporary ones beside the source, at every crash point. Files of the user with the names of the temporary files are lost; a txt or tsv source is never found and the csv file of the same name is emptied (refuted)."
  },
  {
   "property": "C91",
   "status": "partial",
   "theorems": [
    "created_dataset_is_there_partial",
    "create_after_crash_partial",
    "interrupted_dataset_refuted"
   ],
   "note": "For csv sources whose temporary files can be written, and crashes before the dataset file is opened. Killed later, any first part of the file is taken for the dataset and repeating reports success (refuted)."
  },
  {
   "property": "C92",
   "status": "partial",
   "theorems": [
    "dataset_of_records_partial",
    "folderless_source_refuted"
   ],
   "note": "For records long enough and fields that survive the delimited file (C09), when all temporary files can be written. A source without folder is sorted through files in the root folder; if these cannot be written success is reported for a dataset without records (refuted)."
  },
  {
   "property": "C93",
   "status": "partial",
   "theorems": [
    "eight_bits_error_partial",
    "sixteen_bits_error",
    "thirty_two_bits_exact"
   ],
   "note": "In 8 bits the error is bounded by a sixteenth of the element, or 2^-14, or 1/9400 of the largest element, and elements from 1920 become 1920; signs of small elements are lost, see C04 to C06."
  },
  {
   "property": "C94",
   "status": "partial",
   "theorems": [
    "reload_16_and_32_bits",
    "reload_8_bits_partial",
    "reload_8_bits_large_partial",
    "reload_8_bits_refuted",
    "reload_8_bits_wider_refuted"
   ],
   "note": "16 and 32 bits: the same values. 8 bits: the same values if the largest element fills a range of at least 8; otherwise changes below 2^-12 or 1/10000 of the largest element. A negative weight closer to 0 than 2^-15 is kept positive and loaded as 0, and a largest element rounded up to the end of its range makes loading choose a wider one that drops small elements (refuted)."
  },
  {
   "property": "C95",
   "status": "partial",
   "theorems": [
    "list_tensor_exact",
    "list_tensor_partial",
    "row_tensor_partial",
    "ragged_list_refuted"
   ],
   "note": "Boxes are kept exactly and longer rows are rejected; shorter rows are filled with 0 without an error, and an empty list is undefined for full and pixel tensors but an exception for half and quarter tensors (refuted)."
  },
  {
   "property": "C96",
   "status": "partial",
   "theorems": [
    "create_task_keeps_partial",
    "create_task_log",
    "existing_task_kept",
    "other_tasks_lost_refuted"
   ],
   "note": "For names that are the name of one entry. The parser also accepts / and . as names: then the folder of all tasks is removed (refuted)."
  },
  {
   "property": "C97",
   "status": "partial",
   "theorems": [
    "created_task_partial",
    "repeated_creation_partial",
    "interrupted_task_refuted",
    "existing_task_refuted"
   ],
   "note": "A task that was not there before is complete. Interrupted between the description and the metadata, repeating the statement reports success but the task cannot be executed; a task that is there is reported as created from any dataset and goal (refuted)."
  },
  {
   "property": "C98",
   "status": "partial",
   "theorems": [
    "dataset_execution_partial",
    "dataset_execution_scaled_as_first",
    "own_dataset_refuted",
    "label_beside_number_refuted",
    "other_dataset_refuted",
    "other_labels_refuted",
    "no_expected_columns_undefined"
   ],
   "note": "In exact arithmetic. Holds for the task's own dataset when all given columns are scaled alike. Otherwise every column reaches the network scaled like the first one, even on the dataset the task was made from; other datasets are scaled and decoded by their own metadata; a dataset without expected columns is undefined behaviour."
  },
  {
   "property": "C99",
   "status": "partial",
   "theorems": [
    "print_shows_partial",
    "print_raw",
    "negative_limit_shows_all"
   ],
   "note": "In exact arithmetic; the text of numbers and the padding are left out. A negative limit means no limit."
  }
 ]
}