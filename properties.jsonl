{"id": "C01", "title": "Portable byte order", "statement": "Converting a 16-, 32- or 64-bit value to portable order and back returns the value, and the bytes laid down on a little-endian machine are the big-endian representation of the number (so a file written on one machine reads the same on any other).", "quantifier": "every 16/32/64-bit unsigned value", "why_tests_cant": "2^64 inputs; tests sample a handful", "anchors": ["src/util/portable_bytes.hpp: portableBytes, portableFloat"]}
{"id": "C02", "title": "16-bit float storage is stable", "statement": "Storing a tensor value in 16 bits and reading it back, then storing it again, never changes it a second time: every non-NaN 16-bit code decodes to a float that encodes to the same code, infinities stay infinities and NaN stays NaN.", "quantifier": "every 16-bit code and every 32-bit float bit pattern", "why_tests_cant": "2^32 floats; the interesting ones are NaN payloads and infinities", "anchors": ["src/types/half_float.hpp: floatToHalf, halfToFloat"]}
{"id": "C03", "title": "16-bit float error is bounded", "statement": "For every finite 32-bit float the 16-bit stored value has the same sign, never a larger magnitude, differs by less than one unit of the 7-bit mantissa (relative error below 2^-7 for normal numbers), and the conversion is monotone.", "quantifier": "every finite 32-bit float (pairs of floats for monotonicity)", "why_tests_cant": "all floats, an error bound cannot be sampled", "anchors": ["src/types/half_float.hpp: floatToHalf, halfToFloat"]}
{"id": "C04", "title": "8-bit float codes are stable", "statement": "For every bias a user may select, every finite in-range 8-bit code decodes to a float that encodes back to the same code, and the codes for which that is not so are exactly known.", "quantifier": "all 256 codes, all biases the code admits", "why_tests_cant": "the product of codes and biases with exceptional codes is not enumerated by the tests", "anchors": ["src/types/quarter_float.hpp: floatToQuarter, quarterToFloat"]}
{"id": "C05", "title": "8-bit float preserves sign", "statement": "Storing a negative number in 8 bits never yields a positive number and vice versa.", "quantifier": "every finite 32-bit float and every bias", "why_tests_cant": "needs all floats; underflow boundary depends on the bias", "anchors": ["src/types/quarter_float.hpp: floatToQuarter, quarterToFloat"]}
{"id": "C06", "title": "8-bit float saturates and never wraps", "statement": "A float whose magnitude exceeds the largest 8-bit value is stored as the largest value of the same sign, and storing is monotone on non-negative floats.", "quantifier": "every pair of finite non-negative floats and every bias", "why_tests_cant": "all floats", "anchors": ["src/types/quarter_float.hpp: floatToQuarter"]}
{"id": "C07", "title": "Field text encoding round trip", "statement": "For every string and every admissible delimiter, decoding the encoded text gives the string back.", "quantifier": "every byte string, every delimiter character", "why_tests_cant": "escape sequences nest and overlap (\"<_<\", \"<~D>\"); adversarial strings are unbounded", "anchors": ["src/util/text_encoder_decoder.hpp: encodeString, decodeString"]}
{"id": "C08", "title": "Encoded field never breaks the line structure", "statement": "The encoded form of any string contains no newline and no delimiter, for every delimiter that is not itself used by the escape syntax.", "quantifier": "every byte string, every delimiter character", "why_tests_cant": "all strings and delimiters", "anchors": ["src/util/text_encoder_decoder.hpp: encodeString"]}
{"id": "C09", "title": "Delimited file round trip", "statement": "Records written with the delimited writer and read with the delimited reader come back with the same fields (fields without outer whitespace, without doubled quotes and not wrapped in quotes), for any number of records and any delimiter.", "quantifier": "every list of records, every field, every delimiter", "why_tests_cant": "quotes, delimiters, newlines and escapes interact; unbounded records", "anchors": ["src/util/file_writer.hpp: DelimitedTextFileWriter::writeRecord", "src/util/file_reader.hpp: DelimitedTextFileReader::nextRecord, decode"]}
{"id": "C10", "title": "Delimited reader on arbitrary bytes", "statement": "Reading records from any text terminates, consumes the lines in order, each record consumes at least one line, and either returns at least one field or reports the unclosed quote; nothing is read twice.", "quantifier": "every file content, every delimiter", "why_tests_cant": "arbitrary malformed input", "anchors": ["src/util/file_reader.hpp: DelimitedTextFileReader::nextRecord"]}
{"id": "C11", "title": "Directory line reading", "statement": "Reading a directory of text files yields the lines of every file, in listing order, each exactly once (minus one header line per file when headers are skipped).", "quantifier": "every list of files with arbitrary contents", "why_tests_cant": "depends on which files are empty and where", "anchors": ["src/util/file_reader.hpp: TextLinePathReader"]}
{"id": "C12", "title": "File sort result", "statement": "Sorting a file gives its non-empty lines in byte order, without repeated lines when de-duplication is on and with exactly the same multiplicities when it is off, header kept first; the result does not depend on the chunk size.", "quantifier": "every file content, every chunk size, both flags", "why_tests_cant": "external merge over an unbounded number of chunks", "anchors": ["src/util/text_file_sorter.hpp: FileSorter::sort, sort_chunk, merge_chunks"]}
{"id": "C13", "title": "Text substitution", "statement": "Replace-all replaces exactly the leftmost non-overlapping occurrences and terminates; the buffered 16-bit variant agrees with it.", "quantifier": "every text, pattern and replacement", "why_tests_cant": "overlapping occurrences and self-containing replacements", "anchors": ["src/util/data_util.hpp: string_replace_all, u16string_replace_all_to_buffer"]}
{"id": "C14", "title": "Tokenisation loses nothing and is chunk independent", "statement": "Splitting text into tokens yields tokens whose concatenation is the text with carriage returns removed, repeated white space collapsed and unprintable characters replaced, and tokenising a file read in fixed-size chunks gives the same tokens as tokenising the whole text.", "quantifier": "every text and every chunk boundary", "why_tests_cant": "chunk boundaries fall anywhere", "anchors": ["src/util/data_util.hpp: append_character, string_to_tokens, load_file_to_tokens"]}
{"id": "C15", "title": "Train/validation split of samples", "statement": "Splitting a list of samples gives two lists that together are a permutation of the input, with sizes as requested; sampling without replacement yields a sublist of the requested size.", "quantifier": "every list, every ratio, every shuffle order", "why_tests_cant": "random shuffles; sizes unbounded", "anchors": ["src/util/data_util.hpp: splitData, sampleData"]}
{"id": "C16", "title": "Byte-pair decode inverts encode", "statement": "Decoding the encoding of any text gives the text back, for every set of merge codes produced by training or loaded from disk.", "quantifier": "every text and every code table reachable by training", "why_tests_cant": "unbounded code tables and texts", "anchors": ["src/ml/byte_pair_encoder.hpp: encode, decode"]}
{"id": "C17", "title": "Byte-pair encoding does not expand", "statement": "The encoding of a text is never longer than the text plus its two delimiters.", "quantifier": "every text and every code table of codes longer than one symbol", "why_tests_cant": "all texts, all tables", "anchors": ["src/ml/byte_pair_encoder.hpp: encode"]}
{"id": "C18", "title": "Byte-pair model survives save and load", "statement": "Loading a saved byte-pair model into a fresh model gives the same code table, and a file cut short at any byte yields only entries of the original table.", "quantifier": "every code table, every truncation (crash) point", "why_tests_cant": "crash points at any byte", "anchors": ["src/ml/byte_pair_encoder.hpp: save, load"]}
{"id": "C19", "title": "Byte-pair training", "statement": "Training always terminates, assigns each merged pair a fresh code (no code is reused, none collides with a code present in the data) and stops below the code-space limit.", "quantifier": "every data set, early-stopping setting and merge count", "why_tests_cant": "unbounded training loop", "anchors": ["src/ml/byte_pair_encoder.hpp: train, train_on_vocab, updateCodeForMostFrequentPair, findMostFrequentPair"]}
{"id": "C20", "title": "Trie is a map", "statement": "After any sequence of inserts, lookup/search/startsWith/match answer exactly as a finite map from words to the last inserted value.", "quantifier": "every insertion history, every query", "why_tests_cant": "unbounded histories and shared prefixes", "anchors": ["src/types/trie.hpp: Trie::insert, search, startsWith, lookup, match"]}
{"id": "C21", "title": "Trie completion", "statement": "Completion returns an inserted word that extends the prefix and is at least as long as every inserted word extending it; the empty string exactly when nothing inserted has that prefix.", "quantifier": "every insertion history, every prefix, every child order of the hash map", "why_tests_cant": "hash-map iteration order is unspecified", "anchors": ["src/types/trie.hpp: Trie::complete"]}
{"id": "C22", "title": "Recent-key cache", "statement": "Under check-then-insert use, the cache never exceeds its capacity, holds exactly the last `capacity` distinct keys inserted, and never reports a key that was not inserted; the ways to misuse it that are undefined behaviour are characterised.", "quantifier": "every operation history, every capacity", "why_tests_cant": "unbounded histories", "anchors": ["src/util/lru_cache.h: LruCache::contains, insert"]}
{"id": "C23", "title": "Row de-duplication when writing a dataset", "statement": "While the number of distinct keys is within the cache capacity, the written rows are exactly the first occurrences of each given-key in input order, and the return value says whether the row was written; with the cache disabled every row is written.", "quantifier": "every sequence of rows, every cache size", "why_tests_cant": "unbounded sequences", "anchors": ["src/util/file_writer.hpp: BinaryDatasetWriter::writeRow"]}
{"id": "C24", "title": "Binary dataset round trip", "statement": "A dataset file written by the writer and opened by the reader has the same column metadata, the same row count, and row i read back equals row i written, for every i.", "quantifier": "every metadata (labels, names, shapes), every list of rows", "why_tests_cant": "unbounded columns, labels and rows", "anchors": ["src/util/file_writer.hpp: BinaryDatasetWriter", "src/util/file_reader.hpp: BinaryDatasetReader"]}
{"id": "C25", "title": "Binary dataset after a crash", "statement": "If writing stops at an arbitrary byte after the header, the reader sees exactly the rows that were completely written.", "quantifier": "every crash point", "why_tests_cant": "every byte is a crash point", "anchors": ["src/util/file_reader.hpp: readHeader, readRow"]}
{"id": "C26", "title": "Tensor file round trip", "statement": "A tensor saved to a file and loaded has the same shape and bit-identical values; 16- and 8-bit loads equal the 16-/8-bit conversions of the saved values.", "quantifier": "every shape, every value", "why_tests_cant": "all shapes and values", "anchors": ["src/types/base_tensors.hpp: save", "src/types/tensor_impls/full_tensor.hpp, half_tensor.hpp, quarter_tensor.hpp"]}
{"id": "C27", "title": "Every epoch visits every record exactly once", "statement": "Between two restarts a data set yields each of its records exactly once, whatever the shuffles, also when given and expected data share one shuffler.", "quantifier": "every data set size, every shuffle history", "why_tests_cant": "random orders", "anchors": ["src/training_data/training_dataset.hpp: InMemoryTrainingDataSet, BinaryDataSet", "src/util/shuffler.hpp"]}
{"id": "C28", "title": "Training and test rows are disjoint", "statement": "Opening a dataset file with split s (training) and split -(1-s) (test) gives record sets that are disjoint and together are all rows; record indices never leave the file.", "quantifier": "every row count and every split", "why_tests_cant": "float rounding of rowCount*split at large counts", "anchors": ["src/training_data/training_dataset.hpp: BinaryDataSet constructors, nextRecord"]}
{"id": "C29", "title": "Overlapping columns are rejected", "statement": "A dataset definition is rejected as overlapping exactly when two column groups share a source column.", "quantifier": "every list of column groups", "why_tests_cant": "boundary conditions for adjacent/one-column overlaps", "anchors": ["src/util/dataset_utils.hpp: has_overlap, sort_and_check_overlaps"]}
{"id": "C30", "title": "Column reorganisation", "statement": "Rewriting the source file puts given columns before expected columns and the re-indexed groups select exactly the source values of the original groups.", "quantifier": "every list of groups, every record long enough", "why_tests_cant": "all layouts", "anchors": ["src/training_data/training_dataset.hpp: update_column_positions", "src/lang/statements/create_dataset_statement.hpp: CreateDatasetStatement::execute"]}
{"id": "C31", "title": "Label encoding", "statement": "Encoding a known label gives exactly one 1 and otherwise 0s, different labels give different encodings, decoding the encoding returns the label, and unknown labels are reported.", "quantifier": "every label set, every label", "why_tests_cant": "all label sets", "anchors": ["src/training_data/data_encoder.hpp: TextToUniqueCategoryEncoder", "src/training_data/data_decoder.hpp: BestTextCategoryDecoder"]}
{"id": "C32", "title": "Number scaling is undone on output", "statement": "A value standardised and normalised with a column's metadata and decoded again is the original value (exact arithmetic), and re-normalisation to another column's metadata equals scaling the original value with that metadata.", "quantifier": "every value and every metadata with non-zero deviation and range", "why_tests_cant": "all values and metadata", "anchors": ["src/training_data/data_decoder.hpp: RawDecoder::decode", "src/util/dataset_utils.hpp: standardize_and_normalize, unstandardize_and_denormalize", "src/util/tensor_utils.hpp: renormalizeAndStandardize"]}
{"id": "C33", "title": "Streaming statistics", "statement": "The streamed mean and variance of a column equal the arithmetic mean and population variance of all its values, min and max equal the true extrema, whatever the grouping of values into rows.", "quantifier": "every sequence of tensors", "why_tests_cant": "unbounded streams (exact arithmetic)", "anchors": ["src/util/tensor_utils.hpp: update_standardization_normalization_values_calculation, calcStandardizationValuesForEntireSet"]}
{"id": "C34", "title": "Normalised dataset values lie in [0,1]", "statement": "Every numeric value stored in a created dataset lies in [0,1].", "quantifier": "every data set", "why_tests_cant": "interaction of standardisation and normalisation", "anchors": ["src/util/dataset_utils.hpp: normalize_and_standardize_dataset"]}
{"id": "C35", "title": "Lexer", "statement": "Lexing terminates on every text; the tokens and skipped characters partition the text in order with correct offsets; each token is the longest match and, among equally long ones, the earliest pattern.", "quantifier": "every text", "why_tests_cant": "unbounded text, ties between patterns", "anchors": ["src/lang/lexer/lexer.hpp, lexer_patterns.hpp", "src/lang/happyml_script_init.hpp"]}
{"id": "C36", "title": "Parser is total", "statement": "Parsing any token list terminates with a parse result, never reads beyond the tokens, and an error result names the offending token; the inputs on which an exception escapes are characterised.", "quantifier": "every token list", "why_tests_cant": "all inputs incl. truncated ones", "anchors": ["src/lang/parser/parser.hpp"]}
{"id": "C37", "title": "Script execution order", "statement": "Statements run in order, none after the first failure, and `exit` ends the script.", "quantifier": "every list of statements and outcomes", "why_tests_cant": "all histories", "anchors": ["src/lang/execution_context.hpp: CodeBlock::execute", "src/lang/interpreter.hpp"]}
{"id": "C38", "title": "String literals", "statement": "A quoted script string denotes the text between the quotes with escapes replaced.", "quantifier": "every string", "why_tests_cant": "escape interactions", "anchors": ["src/lang/parser/parser.hpp: unescapeString"]}
{"id": "C39", "title": "Layout views preserve elements", "statement": "Transpose, 180-degree rotation, reshape, flatten, window/concatenate and channel views are the index bijections they claim: transposing/rotating twice is the identity, flatten then reshape is the identity, windows of a concatenation are its parts, no element is read out of range.", "quantifier": "every shape, every element type", "why_tests_cant": "all shapes and indices", "anchors": ["src/types/tensor_views/*.hpp"]}
{"id": "C40", "title": "Matrix algebra", "statement": "Matrix product, dot product and outer product satisfy their defining sums; product is associative, distributes over sums, and (AB)^T = B^T A^T (exact arithmetic).", "quantifier": "all shapes and values", "why_tests_cant": "all shapes", "anchors": ["src/types/tensor_views/matrix_multiply_tensor_view.hpp, outer_product_tensor_view.hpp"]}
{"id": "C41", "title": "Matrix inverse", "statement": "When inversion returns, the result is a two-sided inverse of the input; when it reports a singular matrix the input has no inverse (exact arithmetic).", "quantifier": "every square matrix", "why_tests_cant": "all sizes", "anchors": ["src/types/tensor_views/inverse_tensor_view.hpp"]}
{"id": "C42", "title": "Convolution gradients have the right shape", "statement": "The valid correlation computes the defining sum with the defined output shape, and the gradient fed back to the previous layer has the shape of that layer's output for every kernel size.", "quantifier": "every image and kernel size", "why_tests_cant": "all kernel sizes", "anchors": ["src/types/tensor_views/valid_2d_cross_correlation_tensor_view.hpp, full_2d_convolve_tensor_view.hpp", "src/ml/layers/convolution_2d_valid_layer.hpp"]}
{"id": "C43", "title": "Conditional selection", "statement": "Masked selection returns the second tensor's element where the mask holds and the third tensor's element elsewhere.", "quantifier": "all tensors", "why_tests_cant": "third operand only matters when mask is false", "anchors": ["src/types/base_tensors.hpp: BaseTensorTrinaryOperatorView", "src/types/tensor_views/masked_select_tensor_view.hpp"]}
{"id": "C44", "title": "Elementwise division of matrices", "statement": "Dividing two tensors divides corresponding elements, with zero denominators replaced by the documented epsilon; the matrix-divide view computes the quotient sum it documents.", "quantifier": "all tensors", "why_tests_cant": "all shapes", "anchors": ["src/types/tensor_views/element_wise_divide_tensor_view.hpp, matrix_divide_tensor_view.hpp"]}
{"id": "C45", "title": "Tensor reductions", "statement": "Sum, product, min, max, range, mean, index-of-max and top-k return the mathematically defined values; top-k is sorted and contains the k largest.", "quantifier": "every tensor, every k", "why_tests_cant": "all shapes/values, ties", "anchors": ["src/types/base_tensors.hpp"]}
{"id": "C46", "title": "Softmax output is a distribution", "statement": "Softmax outputs are positive and sum to one, do not depend on adding a constant to every input, and keep the order of the inputs.", "quantifier": "every non-empty tensor (exact real arithmetic)", "why_tests_cant": "all real inputs", "anchors": ["src/ml/activators/softmax_activation_function.hpp"]}
{"id": "C47", "title": "Activation ranges and derivatives", "statement": "Each activation stays in its documented range and is monotone, and the derivative function used for training is the derivative of the activation.", "quantifier": "every real input", "why_tests_cant": "calculus statement over all reals", "anchors": ["src/ml/activators/*.hpp"]}
{"id": "C48", "title": "Losses", "statement": "Every loss is non-negative and zero when prediction equals truth, and a small step against the reported derivative does not increase the loss.", "quantifier": "every prediction/truth pair (exact arithmetic)", "why_tests_cant": "all real inputs", "anchors": ["src/ml/losses/*.hpp"]}
{"id": "C49", "title": "Early stopping", "statement": "Training stops no later than the maximum number of epochs (or minimum, if larger), never before the minimum, stops after `patience` epochs without improvement, and when it stops the reported reason is one that holds.", "quantifier": "every sequence of losses and times", "why_tests_cant": "all loss histories", "anchors": ["src/ml/exit_strategy.hpp: DefaultExitStrategy::isDone, whyDone"]}
{"id": "C50", "title": "Batching", "statement": "Each epoch trains on every record exactly once, updates the weights once per full batch and once for a final partial batch, and the reported epoch loss is the mean of the batch losses.", "quantifier": "every record count and batch size", "why_tests_cant": "batch sizes that do not divide the record count", "anchors": ["src/ml/neural_network.hpp: NeuralNetworkForTraining::train"]}
{"id": "C51", "title": "Best-policy training", "statement": "With the `best` policy the network ends with the weights of the epoch with the lowest test loss, the first one in case of ties.", "quantifier": "every history of losses", "why_tests_cant": "all histories", "anchors": ["src/ml/neural_network.hpp: NeuralNetworkForTraining::train"]}
{"id": "C52", "title": "Forward pass over a network graph", "statement": "In one prediction every node computes exactly once, after all its inputs are available, from this prediction's inputs; a failed prediction does not affect later ones.", "quantifier": "every acyclic network, every sequence of predictions", "why_tests_cant": "graph shapes and failure points", "anchors": ["src/ml/neural_network_node.hpp: forward, doForward, forwardFromConnection", "src/ml/neural_network.hpp: predict"]}
{"id": "C53", "title": "Error averaging at fan-out", "statement": "When a node feeds several nodes, the error it receives is the average of the errors sent back by them.", "quantifier": "every number of consumers, every arrival order", "why_tests_cant": "orders and counts", "anchors": ["src/ml/neural_network_node.hpp: backward"]}
{"id": "C54", "title": "Knowledge of every node is saved and loaded", "statement": "Saving (loading) knowledge saves (loads) every node reachable from an input and no other, whatever was saved, loaded or trained before.", "quantifier": "every network graph, every earlier save/train history", "why_tests_cant": "graph shapes", "anchors": ["src/ml/neural_network_node.hpp: markUnsaved, saveKnowledge, loadKnowledge"]}
{"id": "C55", "title": "A saved model reloads as the same model", "statement": "Loading a saved model rebuilds a network in which each layer has the number it was saved under, so each layer gets its own weights.", "quantifier": "every network built with the builder, every creation order", "why_tests_cant": "creation orders", "anchors": ["src/ml/happyml_dsl.hpp: build, buildLayer, createVertexFromMetadata, loadNeuralNetworkForTraining"]}
{"id": "C56", "title": "Saving a model survives a crash", "statement": "If saving a model over an existing one is interrupted at any point, either the old or the new model can be loaded.", "quantifier": "every crash point", "why_tests_cant": "crash points", "anchors": ["src/util/file_writer.hpp: save_config", "src/ml/neural_network.hpp: saveAs"]}
{"id": "C57", "title": "Parameter count", "statement": "The reported parameter count adds each node's parameters exactly once.", "quantifier": "every network graph", "why_tests_cant": "shared nodes", "anchors": ["src/ml/neural_network_node.hpp: get_parameter_count"]}
{"id": "C58", "title": "Hyperband keeps the better configurations", "statement": "Each elimination round keeps the better-scoring configurations, and the search ends.", "quantifier": "every list of configurations and scores", "why_tests_cant": "all score orders", "anchors": ["src/ml/hyperband/hyperband.hpp: run, eliminateConfigurations"]}
{"id": "C59", "title": "Task search ends", "statement": "Creating a label task terminates whatever accuracies the attempts reach.", "quantifier": "every sequence of attempt results", "why_tests_cant": "all histories", "anchors": ["src/util/task_utils.hpp: create_label_task"]}
{"id": "C60", "title": "Predictions use all inputs", "statement": "Executing a task predicts only when every input column was provided, with inputs in column order.", "quantifier": "every input map and column list", "why_tests_cant": "all maps", "anchors": ["src/util/task_utils.hpp: build_given, execute_task_with_inputs"]}
{"id": "C61", "title": "Tables are aligned", "statement": "Every printed row of a result table has the same width for a column as the header.", "quantifier": "every table", "why_tests_cant": "all widths", "anchors": ["src/util/pretty_print_row.hpp"]}
{"id": "C62", "title": "One-hot token encoding", "statement": "Each token becomes a vector with exactly one 1 at the token's position and the number of vectors is the requested length.", "quantifier": "every token list, every largest code, every length", "why_tests_cant": "boundary token", "anchors": ["src/util/one_hot_encoder.hpp"]}
{"id": "C63", "title": "Long text split keeps the text", "statement": "Converting a text file to records keeps every word exactly once, in order, with no record longer than the limit unless a single word is.", "quantifier": "every text and limit", "why_tests_cant": "boundary words", "anchors": ["src/util/dataset_utils.hpp: convert_txt_to_csv"]}
{"id": "C64", "title": "Query inputs are encoded like training data", "statement": "A value given to `execute task` is encoded to the same tensor as the same value in the training file.", "quantifier": "every value and column description", "why_tests_cant": "two separate encoders", "anchors": ["src/training_data/data_encoder.hpp: HappyMLVariantEncoder, TextToPixelEncoder, TextToScalarEncoder, TextToUniqueCategoryEncoder"]}
{"id": "C65", "title": "Pixel storage", "statement": "Pixel values k/255 are stored exactly, any value in [0,1] is off by less than 1/255 plus the rounding of one float (2^-24), values outside are clamped, and storing twice equals storing once.", "quantifier": "every value", "why_tests_cant": "all values", "anchors": ["src/types/tensor_impls/pixel_tensor.hpp"]}
{"id": "C66", "title": "Optimizer state is kept per layer", "statement": "Momentum state of a layer depends only on that layer's gradients: layers get distinct registration ids and updating one leaves the others' state unchanged.", "quantifier": "every update history", "why_tests_cant": "histories", "anchors": ["src/ml/optimizers/adam_optimizer.hpp, sgdm_optimizer.hpp", "src/ml/layers/convolution_2d_valid_layer.hpp: apply"]}
{"id": "C67", "title": "Token embedding", "statement": "Embedding a token sequence gives the first sequence_length tokens only, each a vector of the embedding size holding token plus position row, and never reads outside a table.", "quantifier": "every token list and size", "why_tests_cant": "sizes", "anchors": ["src/ml/rotary_positional_embedding.hpp: embed_tokens, embed_token"]}
{"id": "C68", "title": "Training time limit", "statement": "Training ends at the first epoch after the configured maximum elapsed time has passed since training began.", "quantifier": "every sequence of epoch durations", "why_tests_cant": "long runs", "anchors": ["src/ml/neural_network.hpp: NeuralNetworkForTraining::train", "src/util/timers.hpp: ElapsedTimer::getMilliseconds", "src/ml/exit_strategy.hpp: DefaultExitStrategy::isDone"]}
{"id": "C69", "title": "A network can be trained again", "statement": "Training a network a second time with the same exit strategy behaves as a training from the current weights and does not fail.", "quantifier": "every first loss history and every second one", "why_tests_cant": "histories across two trainings", "anchors": ["src/ml/exit_strategy.hpp: DefaultExitStrategy::isDone", "src/ml/neural_network.hpp: NeuralNetworkForTraining::train"]}
{"id": "C70", "title": "Training report", "statement": "The reported final test loss and epoch are those of the network that training leaves in place, under both retention policies, and the report exists whenever an epoch's loss was below infinity.", "quantifier": "every history of losses and both policies", "why_tests_cant": "all histories", "anchors": ["src/ml/neural_network.hpp: TrainingResult, NeuralNetworkForTraining::train"]}
{"id": "C71", "title": "Every layer is updated once per batch", "statement": "After a batch, training updates every layer exactly once, with the average of the errors collected for it, and succeeds for every network that can be built.", "quantifier": "every acyclic network, every batch", "why_tests_cant": "networks with shared layers or several outputs", "anchors": ["src/ml/neural_network_node.hpp: apply", "src/ml/neural_network.hpp: NeuralNetworkForTraining::train", "src/ml/layers/fully_connected_layer.hpp: apply", "src/ml/layers/bias_layer.hpp: apply"]}
{"id": "C72", "title": "Errors reach every layer", "statement": "For every record, the error of the outputs reaches every layer an output depends on, exactly once and after the layers it feeds; nothing is left over for the next record.", "quantifier": "every acyclic network, every sequence of records", "why_tests_cant": "graph shapes and arrival orders", "anchors": ["src/ml/neural_network_node.hpp: backward"]}
{"id": "C73", "title": "Hyperparameter search returns the best model it trained", "statement": "The configuration returned by the hyperparameter search is one that was trained, and no trained configuration had a smaller loss.", "quantifier": "every list of configurations, every loss function, every elimination factor", "why_tests_cant": "all score orders", "anchors": ["src/ml/hyperband/hyperband.hpp: run", "src/ml/hyperband/configuration_evaluator.hpp: evaluateConfiguration, updateBestConfiguration"]}
{"id": "C74", "title": "Hyperparameter search tries different configurations", "statement": "A configuration repeats an earlier one of the same search only if 1001 draws in a row had all been used before; each batch size drawn is at most the number of records, or 1.", "quantifier": "every random draw, every search space", "why_tests_cant": "random draws", "anchors": ["src/ml/hyperband/hyperband_random_search.hpp", "src/ml/hyperband/hyperband_space.hpp"]}
{"id": "C75", "title": "Optimizer steps have the documented size", "statement": "Gradient descent moves each parameter by rate times the average gradient of the batch, Adam's steps are about the learning rate long, and decaying momentum lowers the rate over time.", "quantifier": "every gradient, every time", "why_tests_cant": "all histories", "anchors": ["src/ml/optimizers/adam_optimizer.hpp, sgdm_optimizer.hpp, mbgd_optimizer.hpp", "src/ml/layers/convolution_2d_valid_layer.hpp: apply"]}
{"id": "C76", "title": "Layer errors are derivatives", "statement": "The error a layer hands back is the derivative of (error times output) by its input, and what it queues for its parameters is the derivative by them plus the regularization term; concatenation and flattening put elements in a fixed order and undo it.", "quantifier": "every shape, every input, error and weight, any number of concatenated inputs", "why_tests_cant": "all shapes and values; finite differences only sample", "anchors": ["src/ml/layers/fully_connected_layer.hpp: forward, backward", "src/ml/layers/bias_layer.hpp", "src/ml/layers/concatenate_wide_layer.hpp", "src/ml/layers/flatten_layer.hpp"]}
{"id": "C77", "title": "A batch moves the parameters by the average gradient", "statement": "After any batch, plain gradient descent changes a layer's parameters by minus the rate times the mean over the batch of the gradients (plus the regularization term), whatever the batch size, and leaves no error queued.", "quantifier": "every batch, shape, rate and weight", "why_tests_cant": "all batches", "anchors": ["src/ml/layers/fully_connected_layer.hpp: apply", "src/ml/layers/bias_layer.hpp: apply", "src/ml/optimizers/mbgd_optimizer.hpp: calculateWeightsChange"]}
{"id": "C78", "title": "Dropout", "statement": "In training a dropout layer zeroes the elements whose random number is at most the rate and passes the error only through the others; predictions equal the expected training output.", "quantifier": "every rate, every random tensor, every input", "why_tests_cant": "random masks", "anchors": ["src/ml/layers/dropout_layer.hpp"]}
{"id": "C79", "title": "Normalization layer", "statement": "The normalization layer subtracts the mean and divides by the standard deviation, keeps the order of the elements, and hands back the derivative.", "quantifier": "every tensor", "why_tests_cant": "all shapes and values", "anchors": ["src/ml/layers/normalization_layer.hpp", "src/types/tensor_views/standardize_tensor_view.hpp", "src/types/tensor_views/standardize_derivative_tensor_view.hpp"]}
{"id": "C80", "title": "Concatenated inputs keep their order", "statement": "The inputs of a concatenation layer arrive in the order in which they were named, which is the order in which the error is split among them.", "quantifier": "every network built with the builder", "why_tests_cant": "all graphs and creation orders", "anchors": ["src/ml/happyml_dsl.hpp: build, buildLayer", "src/ml/neural_network_node.hpp: sendOutput, backward", "src/ml/layers/concatenate_wide_layer.hpp"]}
{"id": "C81", "title": "Task search keeps the best combinations", "statement": "A round of the label task search that finds nothing keeps a quarter of the combinations but at least two (with the whole data one), and drops none that did better than one it keeps; the whole data is used after a bounded number of rounds.", "quantifier": "every result of every attempt, every order, every data set size", "why_tests_cant": "all rankings with ties", "anchors": ["src/util/task_utils.hpp: create_label_task"]}
{"id": "C82", "title": "Saving without overwriting", "statement": "Saving a model without overwriting leaves every existing file as it was, at every crash point, and the new model can be loaded from the new place.", "quantifier": "every existing folder, every model, every crash point", "why_tests_cant": "crash points; file layouts", "anchors": ["src/ml/neural_network.hpp: saveAs, saveWithoutOverwrite", "src/util/data_util.hpp: initialize_knowledge_path_directory"]}
{"id": "C83", "title": "Categorical accuracy is the fraction of correct records", "statement": "The categorical accuracy of a network on a data set is the fraction of the tested records whose every decoded output is the decoded expectation; with a limit only the first records count.", "quantifier": "every network, every decoders, every data set size and limit", "why_tests_cant": "data set sizes beyond what a float counts; empty data sets", "anchors": ["src/ml/neural_network.hpp: compute_categorical_accuracy", "src/training_data/data_decoder.hpp: BestTextCategoryDecoder::decodeBest"]}
{"id": "C84", "title": "Binary accuracy is the fraction of correct records", "statement": "The binary accuracy of a network on a data set is the fraction of the tested records whose every output element rounds to the expected one.", "quantifier": "every network, every number and shape of outputs, every data set size and limit", "why_tests_cant": "all shapes and numbers of outputs", "anchors": ["src/ml/neural_network.hpp: compute_binary_accuracy", "src/types/quarter_float.hpp: roughlyEqual"]}
{"id": "C85", "title": "Tensor statistics do not depend on the threads", "statement": "The statistics of a tensor (counts, minimum, maximum, recommended bias and offset) are those of its finite elements, whatever the size of the tensor and whatever the order in which the threads that read it finish.", "quantifier": "every tensor, every order of the threads", "why_tests_cant": "all schedules of threads on tensors of more than 10^8 elements", "anchors": ["src/util/tensor_stats.hpp: TensorStats, populateBagsByCol, populateBagsByRow"]}
{"id": "C86", "title": "Quarter and percentile values are order statistics", "statement": "The quarter values of a tensor are the lowest element, those a quarter, half and three quarters up in order, and the highest; the ten to ninety percent values are the elements at these percentages (up to rounding to 8 bits); a tensor without finite elements is handled.", "quantifier": "every list of elements, every distribution over the codes", "why_tests_cant": "all multisets of elements, including heavily repeated values", "anchors": ["src/util/tensor_stats.hpp: calculateQuarters, calculateEightyPercent, buildBagFromCounts"]}
{"id": "C87", "title": "The recommended bias and offset cover the tensor", "statement": "With the bias and offset recommended for a fit of all elements, every finite element of the tensor lies in the window of numbers that 8 bits with this bias can hold around the offset, and no finer bias would do.", "quantifier": "every tensor", "why_tests_cant": "all combinations of elements and biases", "anchors": ["src/util/tensor_stats.hpp: TensorStats, bagAndCheckRangeForBiasGoal", "src/types/quarter_float.hpp: calculateBiasRange"]}
{"id": "C88", "title": "Initial weights have the size of the scheme", "statement": "Every initial weight of a layer is a number between the bounds of its scheme, and the weights have the variance 2 / (inputs + outputs) of the Xavier scheme; random tensors stay between their bounds.", "quantifier": "every shape, seed and position, in float and double arithmetic", "why_tests_cant": "all shapes, seeds and positions with rounding", "anchors": ["src/types/tensor_impls/tensor_from_xavier.hpp", "src/types/tensor_impls/tensor_from_random.hpp"]}
{"id": "C89", "title": "Layers, filters and neurons start from different weights", "statement": "Two neurons of a layer, two filters and two layers of the same shape do not start from the same weights, whatever the optimizer.", "quantifier": "every network, every number of layers and filters, every optimizer", "why_tests_cant": "all networks and all positions", "anchors": ["src/types/tensor_impls/tensor_from_xavier.hpp", "src/ml/layers/fully_connected_layer.hpp: FullyConnectedLayer", "src/ml/layers/convolution_2d_valid_layer.hpp", "src/ml/optimizers/mbgd_optimizer.hpp: registerForWeightChanges"]}
{"id": "C90", "title": "Creating a dataset leaves other files alone", "statement": "The statement that creates a dataset changes, at every moment and whether it succeeds or not, no file but its own: the source and every other file of the user stay as they are.", "quantifier": "every file system, every name, source and list of columns, every crash point", "why_tests_cant": "crash points; what else lies beside the source", "anchors": ["src/lang/statements/create_dataset_statement.hpp: CreateDatasetStatement::execute", "src/util/dataset_utils.hpp: convert_txt_to_csv, convert_tsv_to_csv", "src/util/text_file_sorter.hpp: FileSorter::sort"]}
{"id": "C91", "title": "A dataset that is there is complete", "statement": "After the statement that creates a dataset the dataset is there exactly if success was reported; if the process is killed at any moment, repeating the statement has the same result as if it had not been interrupted.", "quantifier": "every file system, every source, every crash point", "why_tests_cant": "crash points", "anchors": ["src/lang/statements/create_dataset_statement.hpp: CreateDatasetStatement::execute", "src/lang/execution_context.hpp: dataset_exists"]}
{"id": "C92", "title": "A dataset is made of the records of its file", "statement": "If the statement reports success, the rows of the dataset are made from exactly the different records of the source, each reduced to its given and expected columns.", "quantifier": "every source text, every list of columns, every number of records", "why_tests_cant": "unbounded files; failing temporary files", "anchors": ["src/lang/statements/create_dataset_statement.hpp: CreateDatasetStatement::execute", "src/training_data/training_dataset.hpp: update_column_positions", "src/util/text_file_sorter.hpp: FileSorter::sort"]}
{"id": "C93", "title": "A tensor kept in fewer bits stays close", "statement": "A tensor materialised in 32 bits holds the same values; in 16 bits every element keeps its sign and is off by less than 1/128 of itself; in 8 bits every element keeps its sign and is off by at most a sixteenth of itself.", "quantifier": "every shape, every finite float at every position", "why_tests_cant": "the bias is chosen from the extremes of the whole tensor; 2^32 values per position", "anchors": ["src/util/tensor_utils.hpp: materializeTensor", "src/util/tensor_utils.hpp: estimateBias", "src/types/tensor_impls/half_tensor.hpp: HalfTensor", "src/types/tensor_impls/quarter_tensor.hpp: QuarterTensor"]}
{"id": "C94", "title": "Weights saved and loaded keep their values", "statement": "A tensor materialised in 8, 16 or 32 bits has the same values after it has been saved to a file and loaded with the same number of bits.", "quantifier": "every shape, every finite float at every position", "why_tests_cant": "loading chooses the bias anew from the values that were kept", "anchors": ["src/util/tensor_utils.hpp: loadTensor", "src/util/tensor_utils.hpp: materializeTensor", "src/types/base_tensors.hpp: BaseTensor::save"]}
{"id": "C95", "title": "A tensor made from nested lists has their values", "statement": "A tensor constructed from nested lists of values holds exactly these values, and lists that are not a box are rejected.", "quantifier": "every nested list of values, 8, 16 and 32 bits", "why_tests_cant": "unbounded ragged lists", "anchors": ["src/types/tensor_impls/full_tensor.hpp: FullTensor", "src/types/tensor_impls/half_tensor.hpp: HalfTensor", "src/types/tensor_impls/quarter_tensor.hpp: QuarterTensor", "src/types/tensor_impls/pixel_tensor.hpp: PixelTensor"]}
{"id": "C96", "title": "Creating a task touches nothing else", "statement": "Creating a task leaves every file outside the folder of that task and the log as it was, wherever it is interrupted; the log only grows and a task that is already there is not changed.", "quantifier": "every file system, task name, dataset name, goal and kill point", "why_tests_cant": "needs every kill point and every name the parser accepts", "anchors": ["src/lang/statements/create_task_statement.hpp: execute", "src/util/task_utils.hpp: create_label_task", "src/lang/parser/parser.hpp: parseCreateTask"]}
{"id": "C97", "title": "A task reported as created can be executed", "statement": "After a create task statement reports success, the folder of the task holds the network found for the named dataset together with the metadata of its columns, so executing it uses that network; if creating it is interrupted, repeating the statement gives the same.", "quantifier": "every file system, dataset, goal, network found and kill point", "why_tests_cant": "needs every kill point between the files of a task", "anchors": ["src/util/task_utils.hpp: create_label_task", "src/util/task_utils.hpp: execute_task_with_inputs", "src/ml/neural_network.hpp: saveAs"]}
{"id": "C98", "title": "Executing a task on a dataset predicts what typing its records predicts", "statement": "Executing a task on a dataset shows one row per record, in the order of the dataset: the predictions that the task shows when the given values of that record are typed, followed by these values.", "quantifier": "every network, every dataset with the columns of the task, every number of records", "why_tests_cant": "two code paths that must agree for every mix of columns and every scaling", "anchors": ["src/util/task_utils.hpp: execute_task_with_dataset", "src/util/task_utils.hpp: execute_task_with_inputs", "src/util/file_reader.hpp: readRow", "src/util/encoder_decoder_builder.hpp: build_decoder"]}
{"id": "C99", "title": "Printing a dataset shows its records", "statement": "Printing a dataset shows its records in order, expected values before given values, as they were when the dataset was created; with a limit the first so many of them; raw shows the stored tensors.", "quantifier": "every dataset, every limit", "why_tests_cant": "every mix of columns and scalings", "anchors": ["src/util/pretty_print_row.hpp: pretty_print", "src/lang/statements/print_statement.hpp: PrintStatement::execute", "src/util/encoder_decoder_builder.hpp: build_decoder"]}
{"id": "C100", "title": "A network whose shapes fit together predicts and trains", "statement": "A network made with the DSL either is refused when it is built, or predicts for every record of the declared shapes, with outputs of the declared shapes, and can be trained with any number of batches of such records: no exception, no undefined behaviour, and the weights keep their shapes.", "quantifier": "every program of DSL calls, every weights, every batches of every sizes, every loss, every optimizer that keeps shapes", "why_tests_cant": "the layers, the walk over the network in both directions, the losses and the updates have to agree on shapes for every network", "anchors": ["src/ml/happyml_dsl.hpp: build", "src/ml/neural_network_node.hpp: doForward, backward, applyRecursively", "src/ml/neural_network.hpp: train", "src/ml/neural_network.hpp: predict"]}
{"id": "C101", "title": "The network made for a task fits its dataset", "statement": "For every dataset whose given columns can be encoded and every goal and complexity, creating a task builds a network that predicts one value for each expected column, in their order and with their shapes, and that can be trained with every batch of records of the dataset.", "quantifier": "every number and kinds of given columns, every number of expected columns, every goal, every complexity, every weights, every batches", "why_tests_cant": "the layers are chosen and sized from the columns, so each combination of columns gives another network", "anchors": ["src/util/task_utils.hpp: build_neural_network_for_label", "src/util/task_utils.hpp: estimate_layer_output_size", "src/ml/happyml_dsl.hpp: add_concatenated_input_layer"]}
{"id": "C102", "title": "What a task predicts can be any value of its expected column, and nothing else", "statement": "The prediction of a task for a label is a distribution over the labels: values above 0 that add up to 1. The prediction for a number, shown on the scale of its column, lies between the smallest and the largest number of the column, and every number in between can be predicted.", "quantifier": "every dataset, every goal and complexity, every weights, every record", "why_tests_cant": "the range of the predictions depends on the last layer, which is chosen from the goal and the shapes, and on the statistics of the column; a test sees a few predictions of a few networks", "anchors": ["src/util/task_utils.hpp: build_neural_network_for_label", "src/util/task_utils.hpp: create_label_task", "src/util/dataset_utils.hpp: standardize_and_normalize", "src/training_data/data_decoder.hpp: RawDecoder::decode"]}
{"id": "C103", "title": "A network predicts the same after it was saved and loaded", "statement": "When a network is saved, at any time, and loaded by another run of the program from the files that were written, it predicts for every record what the saved network predicts. This holds for every network that is made for a task.", "quantifier": "every network, every weights, every history of trainings, saves and loads, every record, every other file in the folder", "why_tests_cant": "a round trip test compares a few networks; whether each layer finds its own file depends on the numbers that the layers get again when the description is loaded, in every network", "anchors": ["src/ml/happyml_dsl.hpp: load_neural_network", "src/ml/neural_network.hpp: saveKnowledge", "src/ml/neural_network.hpp: loadKnowledge", "src/ml/layers/fully_connected_layer.hpp: saveKnowledge", "src/ml/layers/convolution_2d_valid_layer.hpp: loadKnowledge", "src/util/task_utils.hpp: build_neural_network_for_label"]}
{"id": "C104", "title": "A training step moves a whole network against the gradient of its cost", "statement": "Training a batch with plain gradient descent changes every weight and every bias of the network by minus its learning rate times the partial derivative of one number: the mean over the records of what the loss stands for, plus the penalty for large weights. With learning rates that are small enough a batch therefore lowers this number, unless nothing changes at all.", "quantifier": "every network, every depth and width, every loss, every batch, every parameters, every direction, every learning rates", "why_tests_cant": "a gradient check compares difference quotients at a few points of a few networks with a tolerance; that back-propagation through all layers and connections is the derivative, for every network, is a theorem", "anchors": ["src/ml/neural_network.hpp: train", "src/ml/neural_network_node.hpp: backward", "src/ml/layers/fully_connected_layer.hpp: backward", "src/ml/layers/fully_connected_layer.hpp: apply", "src/ml/layers/bias_layer.hpp: apply", "src/ml/optimizers/mbgd_optimizer.hpp: calculateWeightsChange", "src/ml/losses/mae_loss.hpp: compute_loss_derivative"]}
{"id": "C105", "title": "A classifier learns its label: training with softmax and cross-entropy lowers the cross-entropy", "statement": "A network whose output layer chooses labels with softmax, trained on a batch with categorical cross-entropy and plain gradient descent, moves each weight and each bias of its output layer against the derivative of the cross-entropy of the records; so with small enough learning rates a training step lowers the cross-entropy of the record it is trained on.", "quantifier": "all networks of such programs, batches, weights, records and learning rates", "why_tests_cant": "A test trains a classifier for some epochs from random weights and looks at the accuracy; it goes up whenever the scores of the labels happen to be positive. That the direction is right for every sign of the scores is a statement about derivatives at every point.", "anchors": ["src/ml/activators/softmax_activation_function.hpp: derivative", "src/ml/losses/categorical_cross_entropy_loss.hpp: compute_loss_derivative", "src/ml/layers/activation_layer.hpp: backward", "src/ml/neural_network.hpp: train"]}
{"id": "C106", "title": "A dense layer computed with float is close to the exact one", "statement": "For numbers that are not so large that a sum overflows, the layer gives numbers (no NaN, no infinity), and each differs from the exact sum of products plus bias by at most a bound that grows linearly with the number of inputs: about n * 2^-24 times the sum of the sizes of the products.", "quantifier": "all matrices of floats, of every size, and all biases within the stated range", "why_tests_cant": "A test compares a few products of small matrices with a tolerance. How the error grows with the width of a layer, and that nothing but overflow can make NaN or infinity of numbers, is a statement about every row of floats.", "anchors": ["src/types/tensor_views/matrix_multiply_tensor_view.hpp: get_val", "src/types/tensor_views/add_tensor_view.hpp: get_val", "src/ml/layers/fully_connected_layer.hpp: forward", "src/ml/layers/bias_layer.hpp: forward"]}
{"id": "C107", "title": "Softmax computed with float gives probabilities, however large the scores are", "statement": "For scores of which none is NaN or plus infinity and at least one is a number, softmax as the code computes it (maximum taken away, float exponentials, sum in double, division in float) gives numbers from 0 to 1 of which the sum is 1 but for 5 * 2^-24, and a score that is not below another does not get a lower probability. For all other scores every probability is NaN.", "quantifier": "all tensors of floats including infinities and NaN, every number of scores up to 2^28 for the sum, and every exponential function that is monotone, is 1 at 0, not above 1 below 0 and never negative", "why_tests_cant": "A test tries a few scores. That no score, however large, overflows, and that rounding never breaks the order or the sum, concerns all combinations of 2^32 values per score.", "anchors": ["src/ml/activators/softmax_activation_function.hpp: activate", "src/types/base_tensors.hpp: sum", "src/types/base_tensors.hpp: max", "src/types/tensor_views/scalar_divide_tensor_view.hpp: get_val"]}
{"id": "C108", "title": "The activation functions, computed with float, stay in their range and keep order", "statement": "Sigmoid gives numbers from 0 to 1 and the approximation of tanh numbers from -1 to 1 for every number and infinity, in order; ReLU gives exactly the larger of the element and 0; leaky ReLU is exact from 0 on and a hundredth but for rounding below; the approximation of sigmoid gives numbers from 0 to 1 for every number. No activation function makes NaN of something that is not NaN.", "quantifier": "all floats, including infinities", "why_tests_cant": "A test evaluates a handful of points with a tolerance; overflow of the exponential, of 2x and of 1 + |x| and the infinities are where formulas break.", "anchors": ["src/ml/activators/sigmoid_activation_function.hpp: activate", "src/ml/activators/tanh_approx_activation_function.hpp: activate", "src/ml/activators/relu_activation_function.hpp: activate", "src/ml/activators/leaky_relu_activation_function.hpp: activate", "src/ml/activators/sigmoid_approx_activation_function.hpp: activate"]}
{"id": "C109", "title": "A whole prediction computed with float is close to the exact one", "statement": "For a network made with the DSL out of dense and convolution layers, dropout, normalization, flattening and concatenation, in which the shapes fit and no output feeds another layer, and whose parameters and inputs are numbers, every prediction in float gives numbers, and each output differs from the exact prediction with the same parameters by at most a bound that follows, layer by layer, from the sizes of the weights and kernels, from the dropout rates and from the size of an element that each tensor to be normalized has; so an output that is clearly larger than another in exact arithmetic is larger in float.", "quantifier": "all such networks of any depth, width and connection, all parameters and inputs within the bounds", "why_tests_cant": "A test checks the outputs of one small network with a tolerance. How errors of all layers add up, and that none of them can overflow on the way, concerns every depth and all values.", "anchors": ["src/ml/neural_network.hpp: predict", "src/ml/neural_network_node.hpp: doForward", "src/ml/layers/fully_connected_layer.hpp: forward", "src/ml/layers/convolution_2d_valid_layer.hpp: forward", "src/ml/layers/dropout_layer.hpp: forward", "src/ml/layers/bias_layer.hpp: forward", "src/ml/layers/concatenate_wide_layer.hpp: forward", "src/ml/layers/flatten_layer.hpp: forward", "src/ml/layers/activation_layer.hpp: forward"]}
{"id": "C110", "title": "A label that is clearly the most likely is chosen in float too", "statement": "For a network as in C109 whose output layer uses softmax, if the exact probability of one label is larger than that of each other label by a factor a little above one (given by the bound of C109 for the scores and by the smallest difference the exponential function resolves), then the probabilities computed in float are numbers and the index of the largest of them, which the decoder turns into the label, is that label.", "quantifier": "all such networks, parameters and inputs within the bounds of C109, all monotone exponential functions of the C library that give 1 for 0", "why_tests_cant": "A test shows one input whose label comes out right. That rounding in the layers, in exp, in the sum and in the division never turns a clear choice into another label concerns all values.", "anchors": ["src/ml/activators/softmax_activation_function.hpp: activate", "src/types/base_tensors.hpp: maxIndexByRow", "src/ml/neural_network.hpp: predict", "src/ml/layers/activation_layer.hpp: forward"]}
{"id": "C111", "title": "The probabilities a network predicts in float are close to the exact ones", "statement": "For n scores up to x, each probability softmax computes in float lies within a factor of the exact one that is 1 plus a few units in the last place of the scores, of exp and of the sum (and 2^-149, for probabilities float cannot hold); scores that are off by d change each probability by a factor of exp(2d) at most. So each probability predicted by a network as in C109 with softmax at an output differs from the exact one by at most exp(2d)-1 plus the rounding of softmax, where d is the bound of C109 for the scores.", "quantifier": "all numbers of labels, all scores whose fourfold does not overflow, all such networks, parameters and inputs within the bounds, all exponential functions of the C library within a relative error", "why_tests_cant": "A test compares a few probabilities with a tolerance. That no choice of scores, however far apart or close, makes a probability wrong by more than the bound concerns all values and all numbers of labels.", "anchors": ["src/ml/activators/softmax_activation_function.hpp: activate", "src/ml/layers/activation_layer.hpp: forward", "src/ml/neural_network.hpp: predict"]}
{"id": "C112", "title": "Optimizer steps computed in float are those of the formula, and training never stops by itself", "statement": "However many batches are trained and whatever the gradients are (up to 2^63), the parameters and the moments Adam keeps are numbers, never NaN or infinite; the moments are those of exact arithmetic up to a small part of the largest gradient; each step is the one of the formula up to rounding and not longer than 7.5 learning rates; gradient descent moves by rate times gradient up to rounding, and momentum never exceeds a little over ten times rate times the largest gradient. No single gradient that is a number stops a parameter from being trained.", "quantifier": "all sequences of gradients of any length, all parameters up to 2^60, all learning rates up to 1, all functions powf of the C library that square accurately", "why_tests_cant": "A test trains for a few batches. That rounding errors, underflow of squared gradients and overflow never pile up to NaN or to huge steps concerns all sequences of gradients; the gradient after which a parameter stays the same for ever is far outside the values tests use.", "anchors": ["src/ml/optimizers/adam_optimizer.hpp: adam_update", "src/ml/optimizers/sgdm_optimizer.hpp: calculateWeightsChange", "src/ml/optimizers/mbgd_optimizer.hpp: calculateWeightsChange", "src/types/tensor_views/element_wise_inverse_tensor_view.hpp: getValue"]}
{"id": "C113", "title": "Normalization keeps numbers in range and is computed accurately", "statement": "Whatever tensor a normalization layer gets, what comes out is in exact arithmetic at most four times the root of the number of elements. In float and double, as the code computes it, a tensor of up to a million numbers whose largest element is of any usual size (2^-48 to 2^60) becomes a tensor of numbers near the exact ones, within a rounding error that depends on nothing but the number of elements; if what arrives is only near the exact tensor, what leaves is near too. A single number becomes 0. No tensor of numbers becomes NaN or infinite.", "quantifier": "all tensors of any shape, up to 2^20 elements for the rounding errors, all sizes of the elements in the range", "why_tests_cant": "The mean and the deviation are accumulated over all elements with cancellation at each step; a test with a few elements shows nothing about how the errors grow with the number of elements, nor that there is no tensor in the whole range that is divided by zero.", "anchors": ["src/types/tensor_views/standardize_tensor_view.hpp: StandardizeTensorView", "src/ml/layers/normalization_layer.hpp: forward"]}
{"id": "C114", "title": "A task run on typed fields answers, or tells the user which fields are wrong", "statement": "`execute task t using input (...)` predicts exactly if each given column of the task has a field whose value can be encoded; names are compared without regard to case, of fields typed twice the last counts, and the order of the fields does not matter. Otherwise nothing is predicted, the statement fails, its message repeats each field with its values, and what is printed lists exactly the columns without a field, as the dataset names them and in its order, and exactly the fields without a column. Fields without a column are always listed, and an error about a value names its field.", "quantifier": "all tasks, numbers of columns, names, values and fields, in any order and case", "why_tests_cant": "A test types a few fields for one task. That the lists are complete and exact, and that the order of the map, the case of the names and further fields never change the answer, concerns all combinations.", "anchors": ["src/lang/statements/execute_task_statement.hpp: execute", "src/util/task_utils.hpp: execute_task_with_inputs, build_given", "src/lang/parser/parser.hpp: parseInput", "src/lang/happyml_variant.hpp: as_float"]}
{"id": "C115", "title": "Numbers of a dataset survive their scaling in float", "statement": "The statistics of a column of numbers are computed in double and kept in float; each number is stored scaled and unscaled again when it is shown. If the deviation of the column is at most 1 and its numbers are not all the same, each is stored between 0 (the least) and 1 (the greatest) and comes back with an error of at most 8 units in the last place of the largest number of the column. If the column is standardised, the error is at most 48 such units times the deviation. The mean that is kept lies between the least and the greatest number of the column, and the deviation does not exceed a power of two that their difference does not exceed. Scaling keeps the order of numbers. Different numbers of a column stay different.", "quantifier": "all columns of any number of tensors and all numbers up to 2^120, with any rounding on the way", "why_tests_cant": "A test scales a few numbers and compares with a tolerance. How subtraction, division and the two scalings amplify each other's rounding, and for which columns nothing is left of a number, concerns all ranges.", "anchors": ["src/util/tensor_utils.hpp: update_standardization_normalization_values_calculation", "src/util/dataset_utils.hpp: standardize_and_normalize", "src/types/tensor_views/normalize_tensor_view.hpp: getValue", "src/types/tensor_views/unstandardize_tensor_view.hpp: getValue", "src/training_data/data_decoder.hpp: RawDecoder::decode"]}
{"id": "C116", "title": "Losses and what they pass back in float", "statement": "The losses of a record are computed with float numbers, their sums and means in double. The binary and the categorical cross-entropy are never negative, NaN or infinite and differ from the exact ones, in which probabilities below 1e-8 count as 1e-8, by at most 1/100000 for each output. The mean of a tensor lies between its least and its greatest element, so the mean absolute and the mean squared error are not negative and at most the largest absolute or squared difference. The derivatives of the squared error, the smooth absolute error and the categorical cross-entropy are prediction minus truth (times 2) up to one unit in the last place and have the right sign. What a sigmoid trained with the binary cross-entropy passes back for a truth of 0 or 1 is prediction minus truth up to 9 units in the last place, with the right sign. A prediction that is wrong is always corrected.", "quantifier": "all tensors of truths and predictions (up to 2^20 outputs for the sums, 2^53 for the means) and all logarithms that are wrong by at most two units in the last place", "why_tests_cant": "A test computes some losses with a tolerance. Which scores make the slope of the sigmoid exactly 0 and the quotient infinite, and whether the rounding of a mean can leave the range of its elements, concerns all numbers.", "anchors": ["src/ml/losses/binary_cross_entropy.hpp: compute_loss_derivative", "src/ml/losses/categorical_cross_entropy_loss.hpp: compute_error", "src/ml/losses/mse_loss.hpp: compute_loss_derivative", "src/ml/losses/mae_loss.hpp: calculate_total_loss", "src/ml/losses/smae_loss.hpp: compute_loss_derivative", "src/ml/activators/sigmoid_activation_function.hpp: derivative", "src/types/base_tensors.hpp: arithmeticMean"]}
{"id": "C117", "title": "Pictures of a dataset shown as text", "statement": "When records with a picture are printed, the picture is shown as lines of shades. There is a line for each two rows of pixels (and one for the last row of an odd number) and in it a character for each column, always one of the five shades. Of two characters, the one whose pixels are at least as bright in every channel is not shown darker. The brightest spot of a picture that is not black is a full block, and a black picture is blank. A picture of one colour is shown in one shade. A picture with any number of channels can be seen. A picture can be printed whatever numbers it holds.", "quantifier": "all pictures of any size and up to 2^20 channels, with numbers up to 2^100 in size", "why_tests_cant": "A test prints some pictures. The shade is an index into a table that is computed in float from a quotient of rounded numbers; that it never points behind the table, for any numbers, cannot be tested.", "anchors": ["src/training_data/data_decoder.hpp: ImageDecoder::decodeImage", "src/util/pretty_print_row.hpp: record_to_strings"]}
{"id": "C118", "title": "What a value that is not a number does to training", "statement": "Whatever the optimizer and the learning rate, a parameter that had one NaN or infinite gradient is never a number again, whatever gradients follow. If one value of one record is not a number, a fully connected layer that is trained with the record by gradient descent and the mean squared error has no weight left that is a number, wherever the record stands in the dataset, and no output it gives afterwards, for any record, is a number. None of the activation functions that work element by element turns NaN into a number. Every number of a column whose numbers are all the same is stored as NaN, so a dataset with such a column trains no such layer.", "quantifier": "all sizes of the layer, all weights, all records before and after, all learning rates, any number of updates", "why_tests_cant": "A test can show that one value spoils one model. That nothing, no weight of 0, no later record and no optimizer, ever brings a number back concerns all executions.", "anchors": ["src/ml/layers/fully_connected_layer.hpp: forward, backward, apply", "src/ml/losses/mse_loss.hpp: compute_error, compute_loss_derivative", "src/ml/optimizers/adam_optimizer.hpp: calculateWeightsChange", "src/util/dataset_utils.hpp: standardize_and_normalize"]}
