# Formal model of happyml — design

## Method

* Prover: Rocq/Coq 8.16.1. Sources under `rocq/theories`, logical name `Verif`.
* Each area `X` of the C++ code has
  `X_Model.v` (definitions only; every definition cites file and lines in /repo and names the simplifications),
  `X_Spec.v` where the property needs vocabulary of its own (independent of the model's helpers),
  `X_Proofs.v` (lemmas), and
  `X_Props.v` (only property theorems, `Print Assumptions`, and concrete examples meeting the hypotheses).
* C++ outcomes: `Outcome.v` has `Ok v`, `Throw` (an exception leaves the function) and `UB`
  (undefined behaviour: out-of-range index, `back()` of an empty list, division by zero ...).
  Undefined behaviour is never given a value.
* Machine integers are `N`/`Z` with explicit wrap-around. Floats are modelled at bit level (a 32-bit
  `N`) where the code manipulates bits, and as exact numbers (`Q` or `R`) where the property is about
  arithmetic; rounding of `float` arithmetic is **not** modelled in the latter case.
* Random choices (shuffles, hash-map iteration order, directory order, clock) are parameters of the model,
  universally quantified in the theorems.
* Where the full claim is false for the faithful model, the theorem set contains `..._refuted` with a
  concrete witness (a finding about the code), plus the strongest positive statement that holds.

## Trusted base

* Coq's kernel (`coqc`; the files are also checked with `coqchk`).
* No axioms of our own. What `Print Assumptions` reports per theorem is listed in the section
  *Assumptions per theorem* at the end; everything outside the real-number files is closed under the
  global context.
* That the model files transcribe the C++ (each definition cites its source lines).
* Not modelled: the C++ compiler and library implementations (`std::sort`, `std::shuffle`,
  `std::regex`, `std::filesystem` are represented by their documented behaviour), memory allocation failure,
  thread scheduling inside `std::execution::par`, console output, OS errors while writing.

## Plan per property
(The plan is refined as the work goes on; `MANIFEST.json` holds the current status.)

| Id | Model | Proof |
|----|-------|-------|
| C01 | `PortableBytes`: the swaps as bit operations on `N` | bitwise reasoning; bytes of the stored word equal base-256 digits, most significant first |
| C02, C03 | `HalfFloat`: 32-bit patterns in `N`, value as a dyadic rational | arithmetic on `N`; case analysis on NaN/inf |
| C04–C06 | `QuarterFloat`: branch-free arithmetic with 32-bit wrap | finite enumeration over codes x biases lifted by `forallb_forall`; algebra for floats |
| C07, C08 | `TextCodec` on lists of bytes | induction over the string with look-ahead |
| C09, C10 | `Delimited`: writer, reader state machine over lines | induction; invariants of the quote machine |
| C11 | `LineReader` over list of files | refutation plus theorem for directories without empty files |
| C12 | `FileSorter`: chunking, heap merge | permutation/sortedness invariants of the k-way merge |
| C13, C14 | `DataUtil` | fuelled loop shown to be independent of fuel; relational spec of replacement |
| C15 | `SplitData`, shuffle = arbitrary permutation | permutation reasoning |
| C16–C19 | `Bpe` | inductive invariants over the code table and training loop |
| C20, C21 | `Trie` | refinement to association list; DFS result by induction on trie |
| C22, C23 | `LruCache`, `DatasetWriter` | invariants over operation lists |
| C24, C25 | `BinaryDataset` byte-level format | parser/printer round trip, truncation lemma |
| C26 | `TensorFile` | round trip |
| C27, C28, C15 | `Dataset` | permutation invariants; split arithmetic in `Q`/`Z` plus a float32 rounding witness |
| C29, C30 | `Columns` | sortedness, refutation at the boundary |
| C31 | `Labels` | list reasoning |
| C32–C34 | `Scaling`, `Welford` in `Q` | field reasoning, induction over the stream |
| C35 | `Lexer` with abstract matchers and the script's concrete patterns | strong induction on text |
| C36–C38 | `Parser`, `Interp`, `Unescape` | fuel-free structural recursion / measure; refutations |
| C39, C40, C42–C45 | `Tensor`, `Views`, `Conv`, `Reduce` over an abstract element type / `Q` | index arithmetic |
| C41 | `Inverse`: Gauss–Jordan in `Q` | row-operation invariant |
| C46–C48 | `Activations`, `Losses` in `R` (Coquelicot) | analysis |
| C49 | `ExitStrategy` | invariants over loss histories |
| C50, C51 | `Training` loop | fold invariants |
| C52–C54, C57 | `Network` graph | DAG induction |
| C55 | `ModelFile` | DFS numbering |
| C56 | `SaveFiles` file-system trace | refutation |
| C58 | `Hyperband` | sorting spec, refutation |
| C59 | `TaskSearch` | refutation by an infinite history; termination when retries is hoisted is not the code, so not claimed |
| C60 | `Execute` | list reasoning |
| C61 | `PrettyPrint` | lengths |
| C62 | `OneHot` | list reasoning, UB boundary refuted |
| C63 | `TxtToCsv` | refutation + positive part |
| C64 | `QueryEncode` | refutation + positive part |
| C65 | `Pixel` in `Q` | arithmetic |
| C66 | `Optimizer` | map invariants |
| C67 | `Encode` (token embedding) | list reasoning, refutation |
| C68–C70 | `Exit`, `Train` | invariants of the training loop; refutations by a concrete history |
| C71, C72 | `Graph` (walks) | induction on the walk; refutation with a shared node |
| C73, C74 | `Hyperband` | loop invariants; distinctness of generated lists |
| C75 | `Optimizer` in `R` | algebra; refutations |
| C76–C79 | `Layer`, `ConvLayer` in `R` | linearity of the layers; refutations |
| C80 | `ModelFile` | order of edges |
| C81 | `TaskSearch` in `Q` | permutation and sortedness of the leader board |
| C82 | `SaveFiles` | frame reasoning over atomic file operations |
| C83, C84 | `Accuracy` in IEEE `float` | counters exact up to 2^24; refutations beyond |
| C85, C86, C87 | `Bags` in units of 2^-149 | permutations of the threads' parts; the sorted bags laid out as a sorted list |
| C88, C89 | `InitialWeights` in rounded reals (Flocq) | bounds of `fmod` under monotone rounding; irrationality-free divisibility argument for the seeds |
| C90, C91, C92 | `CreateDataset` over a file system of byte strings | frame reasoning per operation; composition of the models of delimited files, column selection and the file sorter |
| C93, C94, C95 | `Storage` over bit patterns; sizes in units of 2^-149 | the bias as a function of the extremes, monotone rounding of quarters; the constructors as sequences of writes |
| C96, C97 | `CreateTask` over the file system of `SaveFiles` | paths as lists of names; every operation confined to the folder, the log or new folders; invariants at every kill point |
| C98, C99 | `ExecDataset` over real numbers; cells instead of text | scaling undone column by column; first maximum of a scaled one-hot; reading the whole file from the `DataSet` model |
| C100 | `Net`: the layers of each vertex on the graph of `Graph`, from the descriptions of `ModelFile` | shapes as a type system for vertices; the walk theorems with fuel that depends on the graph alone; blocked walks compared with a repaired one |
| C101 | `TaskNet`: the calls of `build_neural_network_for_label` as a program for `ModelFile` | symbolic run of the program for any number of columns; depth-first order of the outputs; the shape theorems of C100 |
| C102 | `TaskNet` with `Activation` and `Scaling` | the activation is the last layer of each output vertex; ranges of softmax and sigmoid; the scale of a column is affine |
| C103 | `Knowledge`: what each layer writes and reads, over the walks of C54 and the description of C55 | files of different layers have different names, so the last one written under a name is the only one; task programs are depth first |
| C104 | `NetGrad`: the cost of a batch as a function of all parameters, over `Net`, `Layer` and `Loss` | paths of parameters; each layer passes a derivative on; the sums over the connections cancel; mean over the records; descent by the definition of the derivative |
| C105 | `Classifier`: the cross entropy of the softmax of the scores, over `Net`, `NetGrad` and `Loss` | the derivative of the cross entropy is prediction minus truth; the model's step is that times the score; the sign of a derivative decides for small steps |
| C106 | `FloatNet`: matrix product and dense layer over `F32` (Flocq binary32), the same model as the exact one with other operations | rounding errors by induction over the sum; products may be subnormal, sums of floats are not |
| C107 | `FloatNet` (`float_softmax`: maximum, exponentials, sum in binary64, division), over `Reduce` | the parts are fractions, one of them is 1, so the sum is from 1 to their number; division and rounding are monotone; NaN spreads through sum and division |
| C108 | `FloatNet` activation functions, over `F32` | case analysis on infinities and overflow, monotonicity of rounding |
| C109 | `FloatNet` walk of the network beside the exact one of `Net` | both networks are run as one network of pairs; each vertex keeps pairs near each other (Lipschitz activations, C106) |
| C110 | `float_softmax` behind the scores of C109, `maxIndexByRow` | scores apart by the gap stay apart within the bounds; the parts of softmax then differ by more than the rounding of the division |
| C111 | `float_softmax` beside the exact softmax | each exponential within a factor of the exact one; the factors of the sum, of the division and of both roundings are collected; scores that are near change the quotient by exp(2d) |
| C112 | `float_adam`, `float_momentum`, `float_descent_step` on one parameter | the square of the first moment stays below 56 times the second one plus a slack for underflow, by induction over the gradients; the errors of the divisor, its inverse and the products are collected; an infinite second moment stays infinite |
| C113 | `float_parameters`, `float_normalization` beside `normalization_forward` | the sum of squares grows with every element: an invariant of the loop bounds each element and the mean by the deviation; the errors of mean and sum are collected by induction over the elements, then those of root, difference and division |
| C114 | `execute_task`, `build_given_printing`, `explanation` in `InputHelp` | the loops with a delimiter are `joined` lists, by induction; the map is looked up by its distinct keys; what the parser enters is characterised from the end of what is typed |
| C115 | `column_metadata` in double, `scale` and `unscale` in float | the errors of each operation are collected from the bound of one rounding; minimum and maximum by an invariant of the loop; mean and deviation by another: each mean lies between the mean before and the element, so no square is negative and each adds at most the squared range; a number much smaller than the least one is swallowed since neighbouring floats are further apart |
| C116 | `float_mse`, `float_bce`, `float_cce`, `passed_back` in `FloatLoss` | relative errors are kept as factors and multiplied; the subtraction of two floats never rounds to 0; the running mean moves towards each element by at most its distance, so it cannot leave an interval of floats |
| C117 | `decodeImage` in `Picture`, in binary32 | all operations are monotone since rounding is; the largest gray is one of the grays, so quotients are at most 1 and the index at most 4 |
| C118 | `train_records` in `Spoil`, in binary32, and the optimizers of `FloatOpt` | a sum, difference or product is a number only if both operands are; this is followed through the loops of the matrix products, the loss, the transposed product and the update, and by induction over the records |

## What is modelled

Every definition cites its source; this table collects the citations (model files without `_Model`).

| Source | Models (cited lines) |
|---|---|
| src/lang/execution_context.hpp | `CreateDataset` (36-38, 48-56); `CreateTask` (16-17, 36-46, 48-56) |
| src/lang/happyml_script_init.hpp | `Lexer` (16-88, 20-84) |
| src/lang/happyml_variant.hpp | `InputHelp` (92) |
| src/lang/interpreter.hpp | `Interp` (24-46, 48-67, 69-95) |
| src/lang/lexer/lexer.hpp | `Lexer` (47-77, 82-91) |
| src/lang/lexer/lexer_patterns.hpp | `Lexer` (55-96, 98-135, 106-117, 137-174, 146-160, 176-289, 292-306, 308-317, 319-330, 332-339, 341-350, 352-361) |
| src/lang/lexer/token.hpp | `Lexer` (18-84); `Parser` (85-139, 92-95, 97-103, 105-110, 112-116, 118-123) |
| src/lang/parser/parser.hpp | `InputHelp` (348-372, 375-377); `Literal` (392-405); `Parser` (30-39, 44-48, 50-56, 58-75, 77-85, 91-143, 102-136, 145-169, 158-160, 171-228, 191-210, 225-227, 230-291, 252-276, 288-290, 293-306, 308-390, 319-382, 341-357, 349-355, 367-373, 407-491, 488-490, 493-533, 497-530) |
| src/lang/statements/code_block_statement.hpp | `Interp` (20-32) |
| src/lang/statements/create_dataset_statement.hpp | `Columns` (126-155, 126-135, 142-155); `CreateDataset` (34-202, 59-77, 157-202) |
| src/lang/statements/create_task_statement.hpp | `CreateTask` (30-52) |
| src/lang/statements/execute_task_statement.hpp | `InputHelp` (22-60, 46-57) |
| src/lang/statements/exit_statement.hpp | `Interp` (15-18) |
| src/lang/statements/print_statement.hpp | `ExecDataset` (20-32, 23-26) |
| src/main.cpp | `Interp` (21-27) |
| src/ml/activators/leaky_relu_activation_function.hpp | `Activation` (15-18, 23-26); `FloatNet` (15-18) |
| src/ml/activators/relu_activation_function.hpp | `Activation` (17-19, 24-30); `FloatNet` (17-19) |
| src/ml/activators/sigmoid_activation_function.hpp | `Activation` (16-18, 24-27); `FloatLoss` (15-20, 22-29); `FloatNet` (16-18) |
| src/ml/activators/sigmoid_approx_activation_function.hpp | `Activation` (16-18, 24-28); `FloatNet` (16-18) |
| src/ml/activators/softmax_activation_function.hpp | `Activation` (19-27, 29-32); `FloatNet` (19-27) |
| src/ml/activators/tanh_activation_function.hpp | `Activation` (17-24, 29-33); `FloatNet` (17-24) |
| src/ml/activators/tanh_approx_activation_function.hpp | `Activation` (20-26, 33-41); `FloatNet` (20-26) |
| src/ml/byte_pair_encoder.hpp | `Bpe` (30-37, 84-105, 88, 110-122, 120, 127-155, 217-280, 249-254, 296-350, 317-331, 379-407, 413-440, 445-468, 457-464, 474-483, 524-547, 537-541, 549-583, 562-579, 564-574, 586-591); `OneHot` (371) |
| src/ml/enums.hpp | `ModelFile` (15-53, 60-222) |
| src/ml/exit_strategy.hpp | `Exit` (33-40, 57-58, 61-79, 69, 81-120, 107-117) |
| src/ml/happyml_dsl.hpp | `Activation` (533-560); `FloatNet` (533-560); `InitialWeights` (418-435, 418-491); `Knowledge` (425, 465, 482); `ModelFile` (40-59, 91-119, 121-125, 133-160, 163-190, 192-215, 217-269, 325-334, 356-365, 367-372, 382-527, 388-415, 416-475, 425, 465, 482, 644-646, 648-669, 672-728, 756-773, 775-783, 796-936, 802-841, 843-910, 875-892, 911-919, 938-1010, 974-995); `Net` (91-119, 382-527, 416-515, 418-421, 452-455, 475-478, 529-562); `TaskNet` (336-344, 739-773) |
| src/ml/hyperband/configuration_evaluator.hpp | `Hyperband` (250-262) |
| src/ml/hyperband/hyperband.hpp | `Hyperband` (21-58, 23-25, 28-49, 32-36, 40, 73-83, 76-80) |
| src/ml/hyperband/hyperband_random_search.hpp | `Hyperband` (19-35) |
| src/ml/hyperband/hyperband_space.hpp | `Hyperband` (75-80) |
| src/ml/layers/activation_layer.hpp | `Activation` (30-56); `FloatLoss` (29-56); `FloatNet` (17-28); `Net` (17-28) |
| src/ml/layers/bias_layer.hpp | `FloatNet` (38-52); `Graph` (65-84); `Knowledge` (33-36); `Layer` (44-51, 54-63, 65-84); `ModelFile` (33-41) |
| src/ml/layers/concatenate_wide_layer.hpp | `FloatNet` (43-57); `Layer` (18-41, 43-57, 59-73); `ModelFile` (18-41) |
| src/ml/layers/convolution_2d_valid_layer.hpp | `ConvLayer` (55-101, 71-83, 121-160, 131-153); `FloatNet` (55-101); `InitialWeights` (32-34); `Knowledge` (37-43); `ModelFile` (36-52); `Net` (163-178); `Optimizer` (163-178) |
| src/ml/layers/dropout_layer.hpp | `FloatNet` (14-21, 24-39, 38); `Layer` (14-21, 24-37, 38, 41-44); `ModelFile` (14-21); `Net` (24-39) |
| src/ml/layers/flatten_layer.hpp | `FloatNet` (20-27); `Layer` (13-26, 28-35) |
| src/ml/layers/fully_connected_layer.hpp | `FloatNet` (48-63); `Graph` (134-157); `InitialWeights` (25); `Knowledge` (39-42); `Layer` (50-69, 72-132, 134-157, 167-176); `ModelFile` (40-48); `SaveFiles` (39-42); `Spoil` (50-69, 72-132, 149-151, 153-156) |
| src/ml/layers/normalization_layer.hpp | `FloatNet` (23-43); `Layer` (23-43, 45-60) |
| src/ml/loss.hpp | `FloatLoss` (17-29); `Loss` (17-29) |
| src/ml/losses/binary_cross_entropy.hpp | `FloatLoss` (16-73, 22-23); `Loss` (16-73) |
| src/ml/losses/categorical_cross_entropy_loss.hpp | `FloatLoss` (24-59); `Loss` (24-59) |
| src/ml/losses/mae_loss.hpp | `FloatLoss` (14-38); `Loss` (14-38) |
| src/ml/losses/mse_loss.hpp | `FloatLoss` (10-31); `Loss` (10-31); `Spoil` (10-31) |
| src/ml/losses/smae_loss.hpp | `FloatLoss` (17-60); `Loss` (17-60) |
| src/ml/neural_network.hpp | `Accuracy` (288-317, 289-294, 294-311, 302-307, 311-316, 319-346, 325-341, 329-338); `Exit` (446-559); `FloatLoss` (471-483); `Graph` (87-101, 91-93, 96-98, 257-263, 348-355, 467-484, 491-493); `Knowledge` (257-263, 280-286); `ModelFile` (235-240); `Net` (459-494, 463-484); `SaveFiles` (213-244, 257-263); `Spoil` (471-483); `TaskSearch` (18-51, 20-35); `Train` (19-52, 387-586, 430-447, 446-559, 449-508, 455-508, 465-485, 491-493, 518-526, 530-548, 580-585, 588-624) |
| src/ml/neural_network_node.hpp | `Graph` (39, 59-66, 68-76, 78-87, 89-100, 120-149, 145-148, 155-168, 186-194, 193, 198-264, 223-262, 239-256, 289-300, 322-329); `Net` (170-184, 186-194, 198-222, 246-252, 258) |
| src/ml/optimizer.hpp | `Optimizer` (71-73, 75-78) |
| src/ml/optimizers/adam_optimizer.hpp | `FloatOpt` (33-35, 54-58, 126-162); `InitialWeights` (38-46); `Optimizer` (38-46, 48-67, 69-87, 88-97, 101-124, 164-174) |
| src/ml/optimizers/mbgd_optimizer.hpp | `FloatOpt` (53-63); `InitialWeights` (45-51); `Layer` (53-71); `Optimizer` (45-51, 53-71); `Spoil` (53-63) |
| src/ml/optimizers/sgdm_optimizer.hpp | `FloatOpt` (23, 39-65); `InitialWeights` (29-37); `Optimizer` (29-37, 39-65, 105-123) |
| src/ml/rotary_positional_embedding.hpp | `OneHot` (33-131, 55-67, 113-127) |
| src/training_data/data_decoder.hpp | `Accuracy` (117-124); `Encode` (101-139, 116-123); `ExecDataset` (41-145, 42-70, 116-123, 145-225); `Picture` (155-219, 161, 164-200, 165, 169-195, 175-178, 178, 195, 196, 202-204, 208-215); `Scaling` (57-70) |
| src/training_data/data_encoder.hpp | `Delimited` (28-37, 39-45, 64-68); `Encode` (47-57, 79-147, 117-126, 162-191, 194-218, 223-228, 234-275, 277-279); `ExecDataset` (79-147); `InputHelp` (94, 127, 145); `Scaling` (109-114) |
| src/training_data/training_dataset.hpp | `Columns` (334-362, 346-357, 347-351); `CreateDataset` (289-331, 334-363); `DataSet` (40-45, 82-92, 101-111, 122-137, 127, 172-177, 244-254, 248); `ExecDataset` (72-92); `Parser` (289) |
| src/types/base_tensors.hpp | `Activation` (266-279); `Encode` (349-361); `ExecDataset` (349-361); `FloatLoss` (467-495); `FloatNet` (236-249); `PortableBytes` (141); `Reduce` (221-234, 236-249, 251-264, 266-279, 281-294, 296-312, 314-333, 324-330, 335-347, 335-375, 349-361, 363-375, 377-409, 377-392, 394-409, 411-430, 432-441, 443-446, 449-465, 467-495, 552-571); `SaveFiles` (156-169); `Storage` (111-119, 132-154, 296-312); `Tensor` (41-60, 188-194, 196, 202-209, 211-219, 724-726, 733-741); `TensorFile` (132-154, 145-153) |
| src/types/half_float.hpp | `HalfFloat` (11-14, 27-41, 29, 34, 43-47) |
| src/types/quarter_float.hpp | `Accuracy` (172-177); `Bags` (20-21, 166-170); `HalfFloat` (12-15); `QuarterFloat` (12-18, 78-112, 82, 115-136); `Storage` (20) |
| src/types/tensor_impls/full_tensor.hpp | `Encode` (160); `Knowledge` (119-129); `Storage` (72-90, 103-119, 139-159, 200-202); `Tensor` (71-88, 91-125); `TensorFile` (139-155, 157-159, 168-181, 183-198, 200-202) |
| src/types/tensor_impls/half_tensor.hpp | `Storage` (18-35, 46-54, 71-91, 133-135) |
| src/types/tensor_impls/pixel_tensor.hpp | `Pixel` (8, 121-123, 159-161); `Storage` (60-76); `TensorFile` (142-157) |
| src/types/tensor_impls/quarter_tensor.hpp | `QuarterFloat` (153); `Storage` (18-36, 48-57, 84-101, 152-154); `TensorFile` (131-146, 152-154) |
| src/types/tensor_impls/tensor_allocators.hpp | `Storage` (15-31) |
| src/types/tensor_impls/tensor_from_random.hpp | `InitialWeights` (31-42, 32-41, 78-84) |
| src/types/tensor_impls/tensor_from_xavier.hpp | `InitialWeights` (13, 13-27, 14-26, 20-21, 51-55) |
| src/types/tensor_impls/uniform_tensor.hpp | `Tensor` (11-56) |
| src/types/tensor_views/absolute_tensor_view.hpp | `FloatLoss` (20-23); `Loss` (20-23) |
| src/types/tensor_views/add_tensor_view.hpp | `Tensor` (14-47) |
| src/types/tensor_views/channel_to_tensor_view.hpp | `Tensor` (15-42) |
| src/types/tensor_views/clip_tensor_view.hpp | `FloatLoss` (23-26); `Loss` (23-26) |
| src/types/tensor_views/column_flatten_tensor_view.hpp | `Tensor` (16-55) |
| src/types/tensor_views/denormalize_tensor_view.hpp | `Scaling` (16-24) |
| src/types/tensor_views/diagonal_tensor_view.hpp | `Tensor` (32-66) |
| src/types/tensor_views/dot_product_tensor_view.hpp | `Tensor` (15-56) |
| src/types/tensor_views/element_wise_divide_tensor_view.hpp | `Tensor` (15-63) |
| src/types/tensor_views/element_wise_inverse_tensor_view.hpp | `FloatOpt` (14-24); `Optimizer` (14-24) |
| src/types/tensor_views/element_wise_multiply_tensor_view.hpp | `Tensor` (15-59) |
| src/types/tensor_views/exponential_tensor_view.hpp | `Activation` (19-22) |
| src/types/tensor_views/full_2d_convolve_tensor_view.hpp | `Tensor` (20-25) |
| src/types/tensor_views/full_2d_cross_correlation_tensor_view.hpp | `Tensor` (23-37, 28-35) |
| src/types/tensor_views/inverse_tensor_view.hpp | `Inverse` (14-69, 22-27, 30-57, 31-43, 45-48, 49-56) |
| src/types/tensor_views/less_than_scalar_tensor_view.hpp | `FloatLoss` (15-18); `Loss` (15-18) |
| src/types/tensor_views/log_tensor_view.hpp | `FloatLoss` (24-27, 26); `Loss` (24-27) |
| src/types/tensor_views/masked_select_tensor_view.hpp | `Tensor` (10-49) |
| src/types/tensor_views/matrix_divide_tensor_view.hpp | `Inverse` (16-55) |
| src/types/tensor_views/matrix_multiply_tensor_view.hpp | `Tensor` (15-58) |
| src/types/tensor_views/normalize_tensor_view.hpp | `Scaling` (22-32) |
| src/types/tensor_views/outer_product_tensor_view.hpp | `Tensor` (12-37) |
| src/types/tensor_views/power_tensor_view.hpp | `FloatLoss` (20-23); `Loss` (20-23) |
| src/types/tensor_views/reshape_tensor_view.hpp | `Tensor` (17-28, 30-38, 45-56, 53-56) |
| src/types/tensor_views/rotate_180_tensor_view.hpp | `Tensor` (12-32) |
| src/types/tensor_views/row_flatten_tensor_view.hpp | `Tensor` (15-52) |
| src/types/tensor_views/scalar_divide_tensor_view.hpp | `Activation` (17-21, 35); `FloatNet` (17-21) |
| src/types/tensor_views/scalar_multiply_tensor_view.hpp | `Tensor` (14-42) |
| src/types/tensor_views/scalar_subtract_tensor_view.hpp | `Activation` (17-21, 23-27, 36, 38); `FloatLoss` (17-21, 35-36) |
| src/types/tensor_views/standardize_derivative_tensor_view.hpp | `Layer` (19-45) |
| src/types/tensor_views/standardize_tensor_view.hpp | `FloatNet` (14-33, 17-24, 39-42); `Layer` (14-33, 39-42); `Scaling` (20-41, 48-51) |
| src/types/tensor_views/subtract_tensor_view.hpp | `Tensor` (15-48) |
| src/types/tensor_views/sum_channels_tensor_view.hpp | `Tensor` (13-16) |
| src/types/tensor_views/sum_to_channel_tensor_view.hpp | `Tensor` (15-48) |
| src/types/tensor_views/transpose_tensor_view.hpp | `Tensor` (12-44) |
| src/types/tensor_views/unstandardize_tensor_view.hpp | `Scaling` (20-23) |
| src/types/tensor_views/valid_2d_cross_correlation_tensor_view.hpp | `Tensor` (12-60) |
| src/types/tensor_views/value_transform_tensor_view.hpp | `Activation` (13-32); `FloatNet` (13-32) |
| src/types/tensor_views/window_tensor_view.hpp | `Tensor` (13-41) |
| src/types/tensor_views/zero_pad_tensor_view.hpp | `Tensor` (15-57) |
| src/types/trie.hpp | `Trie` (20-24, 30-32, 34-44, 46-55, 47-53, 57-66, 68-80, 82-91, 94-122, 107-117) |
| src/util/column_metadata.hpp | `DatasetFile` (10-27); `Encode` (10-27); `ExecDataset` (10-27); `Scaling` (10-27) |
| src/util/data_util.hpp | `Bpe` (332-341); `Replace` (265, 291-330, 313-328, 314); `SaveFiles` (36-54); `Tokens` (99-126, 104-107, 114-117, 128-142, 136-138, 144-168, 161-163, 196-214, 216-240) |
| src/util/dataset_utils.hpp | `Columns` (23-44, 27-39, 41-44, 381-408); `CreateDataset` (75-95, 75-123, 295-446); `Encode` (46-65, 255-270); `ExecDataset` (249-270); `FloatScale` (214-258, 260-287); `Scaling` (126-140, 142-155, 214-235, 236-247); `TxtSplit` (89-123) |
| src/util/encoder_decoder_builder.hpp | `ExecDataset` (16-42, 16-85); `InputHelp` (53-62) |
| src/util/file_reader.hpp | `CreateTask` (207-216); `DatasetFile` (202-518, 206-229, 247-284, 258-269, 418-440, 421-423, 426, 429-431, 434, 442-501, 480-487, 503-517); `Delimited` (144-182, 149-181, 151-170, 184-194); `ExecDataset` (247-284, 258-269); `Lines` (26-50, 62-64, 66-98, 112-117); `PortableBytes` (421, 448) |
| src/util/file_writer.hpp | `CreateTask` (130-260); `DatasetFile` (118-260, 129-142, 163-181, 174-181, 189-203, 205-248, 234-239, 250-259); `Delimited` (70-94, 74-89, 79-82); `Lines` (41-46); `Lru` (167-170); `PortableBytes` (194, 210) |
| src/util/index_value.hpp | `Reduce` (9-29) |
| src/util/one_hot_encoder.hpp | `OneHot` (18-31, 33-49, 51-64, 66-84) |
| src/util/portable_bytes.hpp | `NumText` (62-72, 74-78, 80-86); `PortableBytes` (90-100, 102-108, 110-112) |
| src/util/pretty_print_row.hpp | `ExecDataset` (76-95, 76-159, 97-106, 108-122, 135-158); `Table` (17-74, 17-28, 30-44, 46-74) |
| src/util/shuffler.hpp | `DataSet` (20-25, 27-29, 31-40) |
| src/util/task_utils.hpp | `CreateTask` (87-162, 390-658, 414, 416-644, 661-669); `Encode` (66-143, 66-86, 108-154); `ExecDataset` (88-210, 155-158, 176-177, 179-210, 194-208); `InputHelp` (66-86, 66-162, 71, 88-162, 112-149, 152-161); `SaveFiles` (405-411); `TaskNet` (16-48, 50-64, 213-335, 251-273, 274-282, 283-332, 291-309, 321-332, 436-459); `TaskSearch` (340-388, 482, 489, 489-501, 491-501, 509-510, 512-644, 537-566, 570-635, 575-577, 617-628) |
| src/util/tensor_stats.hpp | `Bags` (15-17, 28-189, 59-104, 61-67, 72-101, 106-189, 111-140, 151-163, 250-252, 254-263, 265-276, 278-292, 294-302, 304-312, 351-359, 408-413, 416-429, 431-462, 464-468, 470-502, 486-498, 504-530, 511-527, 515-523, 532-540, 542-552) |
| src/util/tensor_utils.hpp | `Accuracy` (53-55); `DatasetFile` (248-269); `FloatScale` (161-177, 179-201, 187-196); `QuarterFloat` (57-68); `Scaling` (161-177, 179-201, 187-196, 248-269); `Storage` (60-62, 70-84, 99-117) |
| src/util/text_embedder.hpp | `OneHot` (20-38) |
| src/util/text_encoder_decoder.hpp | `TextCodec` (18-32, 20-30, 34-67) |
| src/util/text_file_sorter.hpp | `CreateDataset` (28-87, 62, 75, 102); `FileSort` (28-87, 46-79, 90-92, 100-115, 137-151) |
| src/util/timers.hpp | `Train` (35-40) |

## What is not modelled

* Rounding of `float`/`double` arithmetic in the numeric areas (tensors, layers, losses, optimizers, scaling, search): exact `Q` or `R`, but for predictions (dense and convolution layers, dropout, normalization, activation functions), the losses, the optimizers and the scaling of numbers, which are also modelled in binary32 (`FloatNet`, `FloatLoss`, `FloatOpt`, `FloatScale`: no gradients but those of a sigmoid at the end, a constant learning rate, the C library's `exp`, `tanh`, `log` and `powf` arbitrary functions, no fused operations). Bit-level models exist for the half, quarter and portable formats, for the `float` sizes of the splits (`F32`), for the reductions (`Reduce`) and for decimal text (`NumText`).
* Parallel execution: `std::execution::par` loops are run in order; data races are not modelled.
* Operating system errors, full disks, power loss, links and permissions.
* Console output (but for the messages of running a task on typed fields, `InputHelp`), profiling and timers other than what the exit strategy reads.
* Image and audio decoding libraries; only the storage of pixels and how they are shown as text is modelled.
* Memory: lifetimes, reference cycles and exhaustion.

Source files no definition cites (tests and examples left out): src/create_tokenizer.cpp, src/lang/statements/help_statement.hpp, src/ml/activation.hpp, src/ml/activators/linear_activation_function.hpp, src/ml/base_layer.hpp, src/ml/hyperband/resource_allocator.hpp, src/ml/optimizer_factory.hpp, src/training_data/generated_datasets.hpp, src/training_data/training_pair.hpp, src/types/tensor_impls/identity_tensor.hpp, src/types/tensor_impls/tensor_from_function.hpp, src/types/tensor_views/log2_tensor_view.hpp, src/types/tensor_views/noop_tensor_view.hpp, src/types/tensor_views/round_tensor_view.hpp, src/types/tensor_views/scalar_add_tensor_view.hpp, src/types/tensor_views/softmax_derivative_tensor_view.hpp, src/types/tensor_views/sqrt_tensor_view.hpp, src/types/tensor_views/value_transform_with_double_tensor_view.hpp, src/util/basic_profiler.hpp, src/util/unit_test.hpp.

## Findings

Places where the code does not do what the property says; each has a theorem.

* C02 16-bit float storage is stable: finding: negative NaN loses its sign when stored twice (`half_negative_nan_stable_refuted`)
* C04 8-bit float codes are stable: exact characterisation for biases -111..126 (`quarter_store_idempotent_bias12_refuted`)
* C05 8-bit float preserves sign: the claim is false for the code (finding); quarter_sign gives the exact boundary (`quarter_sign_preserved_refuted`)
* C06 8-bit float saturates and never wraps: false in a corner (`quarter_nan_stays_nan_refuted`)
* C08 Encoded field never breaks the line structure: exception needed when the delimiter is one of the six escape characters (`text_encode_no_delimiter_any_refuted`)
* C09 Delimited file round trip: false for texts that start like a number and contain the delimiter, for doubled quotes and outer quotes (findings); proved for all other fields (`delimited_round_trip_number_refuted`; `delimited_round_trip_double_quote_refuted`; `delimited_round_trip_outer_quote_refuted`)
* C100 A network whose shapes fit together predicts and trains: In exact arithmetic. Holds when the shapes fit, no vertex feeds two others and nothing with several rows and several channels is flattened. Shapes are not checked when a network is built; a network that forks after a fully connected layer or a bias, and one that flattens a colour picture or the output of several filters, is built and predicts, but the first batch throws (refuted). (`forked_network_refuted`; `clogged_network_refuted`; `unchecked_shapes_refuted`)
* C101 The network made for a task fits its dataset: In exact arithmetic, without overflow of sizes. Holds for one picture of at least 3 by 3 in grey or colour, one other column, or several columns of one channel, and expected columns of one row. With several expected columns, and with a colour picture beside another column, the network is built and predicts but every training throws (refuted). (`several_expected_refuted`; `picture_beside_others_refuted`)
* C102 What a task predicts can be any value of its expected column, and nothing else: In exact arithmetic, for the columns of C101. Predictions of labels are distributions and all others lie between 0 and 1. Shown as numbers they stay in the range of the column when its deviation is at most 1. A column of numbers that are not negative and deviate by more than 1 can never be predicted below its average, and the predictions for a column of several numbers each all have the same sum (refuted). (`prediction_below_average_refuted`; `several_numbers_refuted`)
* C104 A training step moves a whole network against the gradient of its cost: Full statement: every network and the number its loss stands for. Proved, in exact arithmetic, for networks of fully connected layers with any activation but softmax and the approximated sigmoid, biases, regularization, dropout, flattening and concatenation, that do not fork, with records that meet no rectifier at its kink. The numbers are: for mse the squares, for smae and categorical cross-entropy half the squares, for binary cross-entropy the cross-entropy; for mae minus half the squares, so that training with mae raises the error. Missing: convolutions, normalization, clipping, softmax, forks (which do not train, C100), and the cross-entropy and absolute error themselves. (`mae_training_raises_error_refuted`)
* C105 A classifier learns its label: training with softmax and cross-entropy lowers the cross-entropy: Full statement: every classifier moves against the gradient of the cross-entropy. Refuted: the derivative of softmax is its input (softmax_activation_function.hpp:29-32), so the error of each label is multiplied by its score before it reaches the weights. Proved for the output layer of every network without forks and for batches of any size: each weight and bias moves by minus the learning rate times the mean of score times partial derivative of the cross-entropy. A classifier of one layer whose scores are all negative for a record has a higher cross-entropy for that record after any small enough step; with positive scores it has a lower one. Missing: scores of both signs for the step of the whole network, and what the layers before the output layer get. Exact arithmetic. (`negative_scores_unlearn_refuted`)
* C106 A dense layer computed with float is close to the exact one: IEEE 754 binary32 arithmetic (Flocq), NaN and infinities included, operations not fused. The condition that nothing overflows is about the sum of the sizes; that the exact result is in range is not enough, see overflow_on_the_way_refuted. (`overflow_on_the_way_refuted`)
* C108 The activation functions, computed with float, stay in their range and keep order: The last sentence is refuted for leaky ReLU and the approximation of sigmoid, which make NaN of infinities (0 * inf, inf / inf). The default tanh is the C library's and is not described. (`infinite_activation_refuted`)
* C11 Directory line reading: false when a file has no line to deliver (finding); proved otherwise, and a prefix is delivered always (`directory_lines_complete_refuted`; `directory_lines_header_refuted`)
* C112 Optimizer steps computed in float are those of the formula, and training never stops by itself: All but the last sentence holds, with a constant learning rate (decaying momentum off) and 32-bit storage. Refuted: after one gradient of 2^64 or more the squared-gradient moment is infinite and Adam never changes the parameter again. (`adam_stops_refuted`)
* C113 Normalization keeps numbers in range and is computed accurately: All but the last sentence holds. Refuted: the elements 0 and 2^-149 become NaN and infinity, since the deviation is not 0 as a double but 0 as a float; and the largest float with its negative becomes infinite, since the difference to the mean is not a float any more. (`normalization_divides_by_zero_refuted`; `normalization_overflow_refuted`)
* C114 A task run on typed fields answers, or tells the user which fields are wrong: All but the last sentence holds. Refuted: if every column has a field, further fields are ignored without a word, although they are listed as invalid when a column lacks its field; and the error about a value that is no number says what the value is but not which field has it. The order in which an unordered_map is enumerated is arbitrary; what the prediction prints is any function of the tensors. (`unknown_fields_are_listed_refuted`; `encoding_error_names_the_field_refuted`)
* C115 Numbers of a dataset survive their scaling in float: All but the last sentence holds. The sizes of mean and deviation are proved for columns of up to 2^20 numbers that are not all the same. Refuted: standardised numbers are normalised with the least number before standardising; if that is at least 2^27 times as large as the standardised numbers, all numbers of the column are stored as the same one. The times 1600000000 and 1700000000 are both stored as -16 and shown as 1650000000. (`distinct_numbers_stay_distinct_refuted`)
* C116 Losses and what they pass back in float: All but the last sentence holds (predictions below 2^-100 excepted); nothing is shown about the value of the smooth absolute error. Refuted: with an exponential function that is accurate to one half, scores of 20 and more give exactly 1 and scores of -100 and less give exactly 0; the slope of the sigmoid is then exactly 0 and 0 is passed back whatever the truth is, so the worst mistakes are never corrected. The absolute error passes back truth minus prediction, the opposite of its derivative's direction (see C48). logf, powf and expf are arbitrary functions with the accuracy named. (`saturated_predictions_learn_refuted`)
* C117 Pictures of a dataset shown as text: All but the last three sentences holds (two characters are compared if both stand for two rows, or both for the last one). A picture of one colour is shown in one shade if the number of rows is even. Refuted: the mean of two rows is divided by two again, that of a last single row is not, so the last line of an odd number of rows is shown twice as bright; a picture with two channels is blank whatever it holds; and a single NaN makes the index of the character an undefined conversion. (`uniform_pictures_look_uniform_refuted`; `two_channels_are_shown_refuted`; `picture_with_NaN_refuted`)
* C12 File sort result: finding: unreadable chunk files give an empty result reported as success (`file_sort_failure_reported_refuted`)
* C14 Tokenisation loses nothing and is chunk independent: text is kept up to the documented normalisation; exact text is not kept (finding) (`tokens_keep_every_text_refuted`)
* C15 Train/validation split of samples: the requested size, computed in float, can exceed the list above 2^24 samples (finding) (`split_size_bounded_refuted`)
* C16 Byte-pair decode inverts encode: delimiter at least 127 (default 256), at most 32641 training calls; false for smaller delimiters (finding) (`bpe_decode_encode_small_delimiter_refuted`)
* C18 Byte-pair model survives save and load: findings: the largest code is not restored; loading into a used model appends (`bpe_load_largest_code_refuted`; `bpe_load_replaces_refuted`)
* C19 Byte-pair training: the reserved padding code can be assigned by repeated training, and training on a file after loading reuses codes (findings) (`bpe_training_padding_code_refuted`; `bpe_train_on_file_codes_new_refuted`)
* C22 Recent-key cache: proved for the check-then-insert use the code makes; capacity 0 and re-inserting a contained key are findings (`lru_zero_capacity_refuted`; `lru_capacity_any_use_refuted`)
* C23 Row de-duplication when writing a dataset: finding: rows with equal given values but different expected values are dropped (`writer_keeps_different_rows_refuted`)
* C24 Binary dataset round trip: image columns: the pixel conversion is any function here, see C65; findings on empty shapes and re-scaling (`dataset_zero_size_rows_refuted`; `renormalise_own_column_refuted`)
* C25 Binary dataset after a crash: a cut inside the header is a finding (`dataset_cut_in_header_refuted`)
* C28 Training and test rows are disjoint: for every split below 1; findings: split 1.0 over-counts above 2^24 rows; search uses overlapping parts; split shuffler unused (`split_whole_file_refuted`; `search_split_disjoint_refuted`; `split_mixed_refuted`)
* C29 Overlapping columns are rejected: the code misses groups that share exactly one column: refuted with a witness; overlaps of two adjacent columns are proved to be reported (`overlap_of_one_column_refuted`; `overlap_empty_group_refuted`)
* C31 Label encoding: finding: a label group over two source columns takes its labels from the first only (`file_labels_two_columns_refuted`)
* C33 Streaming statistics: exact arithmetic; finding: the standardising view's own mean is wrong (`view_mean_refuted`)
* C34 Normalised dataset values lie in [0,1]: holds for columns with deviation at most 1 that are not constant; refuted for standardised columns (`normalised_in_unit_interval_refuted`)
* C35 Lexer: Findings: a minus sign is a syntax error, a lone dot is a number token, a text ending with a backslash cannot be written. (`lex_minus_refuted`; `lex_trailing_backslash_refuted`)
* C36 Parser is total: Grammar equivalence, totality and error classification for every script. Findings: incomplete scripts make exceptions escape; help swallows the next word; '://' is not checked; fractions of a limit are dropped. (`parse_errors_escape_refuted`; `parse_surprises_refuted`)
* C37 Script execution order: Order and stop at the first failure proved; exit ends the script is refuted: later statements run. Findings: following script files run after a failure; a blank interactive line is undefined behaviour. (`exit_runs_on_refuted`; `files_go_on_refuted`; `blank_line_refuted`)
* C39 Layout views preserve elements: Proved for one channel and for every view with in-range use. Refuted parts: a flattened tensor of several channels cannot be reshaped back, channel counts and the channel offset are not checked by some views, getRowValues ignores its channel, the diagonal view of a vector keeps its first element only. (`flatten_then_reshape_channels_refuted`; `row_values_channel_refuted`; `unchecked_channels_refuted`; `diagonal_of_vector_refuted`)
* C41 Matrix inverse: Over an arbitrary field. The width of the matrix is not checked (refuted part recorded). (`inverse_not_square_refuted`)
* C42 Convolution gradients have the right shape: Shapes and sums are proved for kernels up to 3 and one input channel. Refuted: kernels of 4 and more always throw in the backward pass, and with several input channels the gradient has one channel. (`conv_gradient_channels_refuted`; `conv_gradient_kernel_refuted`)
* C43 Conditional selection: The selection is right where the condition holds; elsewhere it is wrong, with counterexamples. (`masked_select_below_refuted`; `masked_select_refuted`)
* C44 Elementwise division of matrices: Element division is right; the matrix division is refuted. (`matrix_divide_refuted`)
* C45 Tensor reductions: Comparisons on IEEE floats, sums and means in exact arithmetic. Finding: the Euclidean norm of a tensor of zeros is NaN. (`norm_of_zero_refuted`)
* C47 Activation ranges and derivatives: Exact real arithmetic. Refuted: the derivative of the approximate sigmoid is right only at +-1/2; the softmax layer multiplies by its input instead of using a derivative. (`sigmoid_approx_derivative_refuted`)
* C48 Losses: Exact real arithmetic. Holds for the squared, smooth, binary and categorical losses. Refuted: every step against the derivative of the mean absolute error increases it; the smooth loss is not the documented one for errors above 1; behind a softmax layer the categorical loss can increase with every step. (`mae_descends_refuted`; `mae_gradient_refuted`; `smae_is_smooth_absolute_error_refuted`; `cce_through_softmax_layer_refuted`)
* C50 Batching: Batches and updates for every size; the epoch loss is the average only if the batch size divides the number of records (exact arithmetic), refuted otherwise. A batch size of zero divides by zero. (`batch_size_zero_refuted`; `epoch_loss_last_batch_refuted`)
* C51 Best-policy training: Holds for every history with a loss below infinity; otherwise there is no checkpoint to load (no_best_network_refuted). (`no_best_network_refuted`)
* C52 Forward pass over a network graph: All but the last clause: after a layer threw, tensors stay on the connections and the next prediction uses them (failed_prediction_refuted). (`failed_prediction_refuted`)
* C53 Error averaging at fan-out: With one consumer the error is passed on; with several the last error to arrive is counted twice, so it is not the average. (`error_average_refuted`; `fork_average_refuted`)
* C54 Knowledge of every node is saved and loaded: Every history of saves, loads and trainings, for networks in which every node leads to an output; otherwise false. Interrupted operations are not modelled. (`dead_end_saving_refuted`)
* C55 A saved model reloads as the same model: Full statement: every network. Proved for every program that adds vertices depth first and names joined parents in order; refuted for other creation orders, for connections past a layer and for rates below half of 10^-15. Every program: the file lists every vertex and edge once, and no two weights share a file. (`layer_by_layer_refuted`; `inputs_first_refuted`; `skip_connection_refuted`; `joins_reordered_refuted`; `tiny_rates_refuted`)
* C56 Saving a model survives a crash: Full statement is false: whatever is saved over, there is a crash point with nothing left (refuted), and a task with an empty description is taken for complete (refuted). Proved: an uninterrupted save leaves exactly the new model; at every crash point everything outside the folder is untouched. (`save_crash_refuted`; `half_saved_task_refuted`)
* C58 Hyperband keeps the better configurations: The search ends for every factor of at least two (not for one); each elimination keeps the configurations with the largest losses (refuted). (`search_with_factor_one_refuted`; `elimination_keeps_the_worst_refuted`; `the_best_is_eliminated_refuted`)
* C59 Task search ends: Full statement is false: without an accurate attempt on the whole data the search never ends, and if every attempt throws it takes the front of an empty vector. Proved: if it ends, the saved network is the one that reached the target on the whole data. (`search_ends_refuted`; `search_after_failures_refuted`)
* C61 Tables are aligned: header, first row and every row whose texts fit; refuted for later rows with longer texts (`later_row_aligned_refuted`)
* C62 One-hot token encoding: proved for freshly trained models and ASCII text; findings: undefined behaviour at code = size (loaded models) and for bytes from 128 on (`one_hot_loaded_model_refuted`)
* C63 Long text split keeps the text: nothing lost, order and length limit hold for every text; exactly-once refuted: sentence-ending words near the limit are written twice (`txt_split_words_refuted`)
* C64 Query inputs are encoded like training data: same values in the same order for numbers and labels; refuted: label queries have transposed shape, image queries are not divided by 255 (`query_labels_same_tensor_refuted`; `query_images_refuted`)
* C66 Optimizer state is kept per layer: Exact arithmetic, decaying momentum off: every change is a function of the gradients given with the same id, and ids differ. Refuted for the filters of one convolution, which share an id. (`filters_share_momentum_refuted`)
* C68 Training time limit: Refuted: the strategy is given the duration of the last epoch, because reading the timer restarts it. (`time_limit_refuted`)
* C69 A network can be trained again: Refuted: the strategy remembers the best epoch of the earlier training, and the second training throws in its first epoch unless that beats it. (`second_training_refuted`)
* C70 Training report: Right for the best policy; with the last policy the report is that of the best epoch. (`last_policy_report_refuted`)
* C71 Every layer is updated once per batch: Holds when no node feeds two others; otherwise apply is called once per path and a shared fully connected or bias layer throws. (`shared_layer_update_refuted`)
* C72 Errors reach every layer: Holds when every node leads to an output; a node that also feeds a dead end never gets an error. (`dead_end_refuted`)
* C73 Hyperparameter search returns the best model it trained: With at least two configurations; with one the search returns no model. (`single_configuration_refuted`)
* C75 Optimizer steps have the documented size: Gradient descent steps and the range of adjusted rates hold, and no step of Adam is longer than 7.3 learning rates; Adam's first step is over three times the learning rate, the rate of decaying momentum grows, a convolution adds the steps of a batch instead of averaging. (`decaying_rate_grows_refuted`; `adam_first_step_refuted`; `batch_is_not_averaged_refuted`)
* C76 Layer errors are derivatives: Exact arithmetic. Fully connected, bias, concatenation, and flattening of one channel; with several channels flattening hands back an exception (refuted), so such a network cannot be trained. (`flatten_channels_refuted`; `flatten_single_row_refuted`)
* C78 Dropout: Refuted: the mask is all ones whatever the random numbers, and predictions are multiplied by 1/(1-rate). (`dropout_drops_nothing_refuted`; `dropout_prediction_refuted`)
* C79 Normalization layer: Order is kept and the deviation is positive; the mean used is not the mean, and the error handed back is not the derivative. (`normalization_centre_refuted`; `normalization_gradient_refuted`)
* C80 Concatenated inputs keep their order: Full statement: every concatenation. Proved when the parents are inputs named in order of creation; refuted otherwise. (`joined_out_of_order_refuted`; `joined_join_refuted`)
* C82 Saving without overwriting: The old files are kept at every crash point; the new model is split over two folders and cannot be loaded (refuted). (`no_overwrite_refuted`)
* C83 Categorical accuracy is the fraction of correct records: For 1 to 2^24 tested records. Beyond, the float counters stop: a network that is right on half of 2^25 records is reported as always right; with no records the accuracy is NaN (refuted). (`accuracy_of_many_refuted`; `accuracy_of_none_refuted`)
* C84 Binary accuracy is the fraction of correct records: For one output with one element, and n outputs of n elements. Of a larger output only the first element is compared, and with two outputs of one element the call throws (refuted). (`binary_accuracy_refuted`; `binary_accuracy_two_outputs_refuted`; `accuracy_of_none_refuted`)
* C85 Tensor statistics do not depend on the threads: The counts are right for every size and every order of threads. The values are not: from 10^8 elements a bag that the last thread has no element for is reset to 0, so the maximum of a row of 1.0 and a row of 100.0 is 1 or 100 (refuted). (`last_thread_decides_refuted`; `maximum_of_threads_refuted`)
* C86 Quarter and percentile values are order statistics: For one thread and when no code stands for numbers of different signs: quarters are right up to rounding. The 50 and 90 percent values are too high when one code holds most elements, and a tensor without finite elements reads the front of an empty vector (refuted). (`ten_to_ninety_refuted`; `ninety_percent_refuted`; `no_numbers_refuted`)
* C87 The recommended bias and offset cover the tensor: For one thread, the fit of all elements with 0, and no code with numbers of different signs: bias and offset are determined exactly; also for the fits of all and of 50 percent, with and without 0, if different numbers have different codes. Refuted otherwise: of -15, 1 and 30700 the last falls outside. (`recommended_covers_refuted`)
* C88 Initial weights have the size of the scheme: Weights are numbers within the bounds, with rounding. The variance is at most 26 hundredths of that of the scheme (refuted); random tensors are bounded when the difference of the bounds is a float, and NaN when the bounds are equal (refuted). (`xavier_variance_refuted`; `random_tensor_of_one_value_refuted`)
* C89 Layers, filters and neurons start from different weights: Neurons and layers differ in exact arithmetic with the optimizers other than sgd. With sgd layers of the same shape start identical; consecutive convolutions share filters; seeds repeat modulo 12345689 (all refuted). (`layers_differ_sgd_refuted`; `filters_differ_refuted`; `far_seeds_refuted`)
* C90 Creating a dataset leaves other files alone: For csv sources: all files but the temporary ones beside the source, at every crash point. Files of the user with the names of the temporary files are lost; a txt or tsv source is never found and the csv file of the same name is emptied (refuted). (`neighbours_lost_refuted`; `text_source_refuted`; `text_source_destroys_refuted`)
* C91 A dataset that is there is complete: For csv sources whose temporary files can be written, and crashes before the dataset file is opened. Killed later, any first part of the file is taken for the dataset and repeating reports success (refuted). (`interrupted_dataset_refuted`)
* C92 A dataset is made of the records of its file: For records long enough and fields that survive the delimited file (C09), when all temporary files can be written. A source without folder is sorted through files in the root folder; if these cannot be written success is reported for a dataset without records (refuted). (`folderless_source_refuted`)
* C94 Weights saved and loaded keep their values: 16 and 32 bits: the same values. 8 bits: the same values if the largest element fills a range of at least 8; otherwise changes below 2^-12 or 1/10000 of the largest element. A negative weight closer to 0 than 2^-15 is kept positive and loaded as 0, and a largest element rounded up to the end of its range makes loading choose a wider one that drops small elements (refuted). (`reload_8_bits_refuted`; `reload_8_bits_wider_refuted`)
* C95 A tensor made from nested lists has their values: Boxes are kept exactly and longer rows are rejected; shorter rows are filled with 0 without an error, and an empty list is undefined for full and pixel tensors but an exception for half and quarter tensors (refuted). (`ragged_list_refuted`)
* C96 Creating a task touches nothing else: For names that are the name of one entry. The parser also accepts / and . as names: then the folder of all tasks is removed (refuted). (`other_tasks_lost_refuted`)
* C97 A task reported as created can be executed: A task that was not there before is complete. Interrupted between the description and the metadata, repeating the statement reports success but the task cannot be executed; a task that is there is reported as created from any dataset and goal (refuted). (`interrupted_task_refuted`; `existing_task_refuted`)
* C98 Executing a task on a dataset predicts what typing its records predicts: In exact arithmetic. Holds for the task's own dataset when all given columns are scaled alike. Otherwise every column reaches the network scaled like the first one, even on the dataset the task was made from; other datasets are scaled and decoded by their own metadata; a dataset without expected columns is undefined behaviour. (`own_dataset_refuted`; `label_beside_number_refuted`; `other_dataset_refuted`; `other_labels_refuted`)

## Assumptions per theorem

* **A**: closed under the global context
* **B**: `ClassicalDedekindReals.sig_forall_dec`, `FunctionalExtensionality.functional_extensionality_dep` (all from the standard library)
* **C**: `ClassicalDedekindReals.sig_forall_dec`, `ClassicalDedekindReals.sig_not_dec`, `FunctionalExtensionality.functional_extensionality_dep` (all from the standard library)
* **D**: `ClassicalDedekindReals.sig_forall_dec`, `ClassicalDedekindReals.sig_not_dec`, `Classical_Prop.classic`, `FunctionalExtensionality.functional_extensionality_dep` (all from the standard library)

* C01 Portable byte order (proved): `portable_bytes_involutive` A, `portable_bytes_width` A, `portable_bytes_big_endian` A
* C02 16-bit float storage is stable (proved): `half_codes_stable` A, `half_classes_kept` A, `half_store_idempotent` A, `half_negative_nan_stable_refuted` A
* C03 16-bit float error is bounded (proved): `half_error_bound` A, `half_store_monotone` A
* C04 8-bit float codes are stable (proved): `quarter_codes_stable_iff` A, `quarter_store_idempotent` A, `quarter_store_idempotent_bias12_refuted` A
* C05 8-bit float preserves sign (partial): `quarter_sign_preserved_refuted` A, `quarter_sign_partial` A
* C06 8-bit float saturates and never wraps (proved): `quarter_saturates` A, `quarter_error_bound` A, `quarter_store_monotone` A, `quarter_nan_stays_nan_refuted` A, `estimate_bias_best` A
* C07 Field text encoding round trip (proved): `text_decode_encode` A, `text_encode_injective` A, `text_decode_plain` A
* C08 Encoded field never breaks the line structure (proved): `text_encode_no_newline` A, `text_encode_no_delimiter` A, `text_encode_no_delimiter_any_refuted` A
* C09 Delimited file round trip (partial): `delimited_round_trip_partial` A, `delimited_round_trip_number_refuted` A, `delimited_round_trip_double_quote_refuted` A, `delimited_round_trip_outer_quote_refuted` A
* C10 Delimited reader on arbitrary bytes (proved): `delimited_next_record` A, `delimited_read_total` A
* C100 A network whose shapes fit together predicts and trains (partial): `network_predicts_partial` D, `network_computes_partial` D, `dense_vertex_computes` C, `network_trains_partial` D, `forked_network_refuted` D, `clogged_network_refuted` D, `unchecked_shapes_refuted` D
* C101 The network made for a task fits its dataset (partial): `task_network_predicts_partial` D, `task_network_trains_partial` D, `several_expected_refuted` D, `picture_beside_others_refuted` D
* C102 What a task predicts can be any value of its expected column, and nothing else (partial): `label_prediction_partial` D, `number_prediction_partial` D, `number_in_range_partial` D, `prediction_below_average_refuted` D, `several_numbers_refuted` D
* C103 A network predicts the same after it was saved and loaded (partial): `knowledge_restored_partial` D, `saved_network_predicts_the_same_partial` D, `task_network_reloads_partial` D
* C104 A training step moves a whole network against the gradient of its cost (partial): `training_follows_gradient_partial` D, `each_parameter_descends_partial` D, `training_lowers_cost_partial` D, `mae_training_raises_error_refuted` D
* C105 A classifier learns its label: training with softmax and cross-entropy lowers the cross-entropy (partial): `classifier_step_partial` D, `positive_scores_learn_partial` D, `negative_scores_unlearn_refuted` D
* C106 A dense layer computed with float is close to the exact one (proved): `float_multiply` D, `float_dense` D, `float_error_linear` B, `overflow_on_the_way_refuted` D
* C107 Softmax computed with float gives probabilities, however large the scores are (proved): `float_softmax_works` D, `float_softmax_not_a_number` D
* C108 The activation functions, computed with float, stay in their range and keep order (proved): `float_sigmoid_works` D, `float_tanh_approx_works` D, `float_relu_works` D, `float_leaky_works` D, `float_sigmoid_approx_works` D, `infinite_activation_refuted` D
* C109 A whole prediction computed with float is close to the exact one (proved): `float_prediction` D, `clear_choice` D, `faithful_activations` D
* C11 Directory line reading (partial): `write_then_read_lines` A, `directory_lines_complete_partial` A, `directory_lines_prefix` A, `directory_lines_complete_refuted` A, `directory_lines_header_refuted` A
* C110 A label that is clearly the most likely is chosen in float too (proved): `float_label` D, `clear_label` D
* C111 The probabilities a network predicts in float are close to the exact ones (proved): `float_probabilities` D, `softmax_factor_small` D, `probabilities_of_near_scores` D, `float_prediction_probabilities` D
* C112 Optimizer steps computed in float are those of the formula, and training never stops by itself (partial): `float_adam_gives_numbers` D, `float_adam_step_is` D, `float_adam_moments` D, `float_momentum_is_bounded` D, `float_momentum_step_is` D, `float_descent_is` D, `adam_stops_refuted` D
* C113 Normalization keeps numbers in range and is computed accurately (partial): `normalization_is_bounded` C, `float_normalization_follows` D, `float_normalization_is_close` D, `float_normalization_of_one` D, `normalization_divides_by_zero_refuted` D, `normalization_overflow_refuted` D
* C114 A task run on typed fields answers, or tells the user which fields are wrong (partial): `complete_fields_are_answered` D, `incomplete_fields_are_explained` D, `advice_names` A, `fields_in_any_case` A, `nothing_to_run` D, `unknown_fields_are_listed_refuted` D, `encoding_error_names_the_field_refuted` D
* C115 Numbers of a dataset survive their scaling in float (partial): `float_normalised_column_survives` D, `float_normalised_column_fills` D, `float_standardised_number_survives` D, `float_scaling_keeps_order` D, `large_numbers_collapse` D, `float_column_statistics` D, `float_column_usable` D, `float_standardised_column_survives` D, `float_column_keeps_order` D, `float_constant_column_is_lost` D, `distinct_numbers_stay_distinct_refuted` D
* C116 Losses and what they pass back in float (partial): `float_difference_derivatives` D, `float_absolute_derivatives` D, `float_bce_passes_back` D, `float_bce_corrects_labels` D, `saturated_predictions_learn_refuted` D, `float_bce_loss` D, `float_cce_loss` D, `float_mean_between` D, `float_mae_loss` D, `float_mse_loss` D, `rounded_log_accurate` D
* C117 Pictures of a dataset shown as text (partial): `picture_shape` D, `brighter_pixels_look_brighter` D, `brightest_spot_is_full` D, `uniform_picture_is_uniform` D, `uniform_pictures_look_uniform_refuted` D, `two_channels_are_shown_refuted` D, `picture_with_NaN_refuted` D
* C118 What a value that is not a number does to training (proved): `bad_gradient_is_never_forgotten` D, `bad_record_spoils_layer` D, `constant_column_spoils_layer` D, `float_constant_column_is_lost` D, `nan_passes_activations` D
* C12 File sort result (proved): `file_sort_result` A, `file_sort_chunk_independent` A, `file_sort_failure_reported_refuted` A
* C13 Text substitution (proved): `replace_all_replaces_leftmost` A, `replaced_deterministic` A, `replace_all_unchanged` A
* C14 Tokenisation loses nothing and is chunk independent (proved): `tokens_keep_text` A, `tokens_keep_tidy_text` A, `tokens_have_shape` A, `tokens_chunk_independent` A, `tokens_keep_every_text_refuted` A
* C15 Train/validation split of samples (partial): `split_is_partition_partial` A, `sample_is_part` A, `split_size_bounded_refuted` A
* C16 Byte-pair decode inverts encode (proved): `bpe_decode_encode` A, `bpe_decode_encode_table` A, `bpe_decode_encode_small_delimiter_refuted` A
* C17 Byte-pair encoding does not expand (proved): `bpe_encode_not_longer` A, `bpe_encode_not_longer_table` A
* C18 Byte-pair model survives save and load (proved): `bpe_save_load` A, `bpe_load_cut_file` A, `bpe_load_largest_code_refuted` A, `bpe_load_replaces_refuted` A
* C19 Byte-pair training (partial): `bpe_training_result_partial` A, `bpe_training_codes_new` A, `bpe_training_terminates` A, `bpe_training_defined` A, `bpe_training_padding_code_refuted` A, `bpe_train_on_file_codes_new_refuted` A
* C20 Trie is a map (proved): `trie_search` A, `trie_match` A, `trie_lookup` A, `trie_starts_with` A
* C21 Trie completion (proved): `trie_complete` A
* C22 Recent-key cache (proved): `lru_check_then_insert` A, `lru_zero_capacity_refuted` A, `lru_capacity_any_use_refuted` A
* C23 Row de-duplication when writing a dataset (proved): `writer_cache_disabled` A, `writer_deduplicates` A, `writer_keeps_different_rows_refuted` A
* C24 Binary dataset round trip (proved): `dataset_round_trip` A, `label_values_exact` A, `dataset_zero_size_rows_refuted` A, `renormalise_own_column_refuted` A
* C25 Binary dataset after a crash (proved): `dataset_cut_after_header` A, `dataset_cut_in_header_refuted` A
* C26 Tensor file round trip (proved): `tensor_save_load` A, `tensor_file_layout` A, `tensor_file_elements` A, `half_tensor_save_load` A
* C27 Every epoch visits every record exactly once (proved): `shuffler_orders` A, `in_memory_epoch` A, `shared_shuffler_epoch` A, `binary_epoch` A
* C28 Training and test rows are disjoint (proved): `split_partition` D, `split_nine_to_one` D, `split_whole_file_refuted` D, `read_past_rows_undefined` A, `search_split_disjoint_refuted` D, `split_mixed_refuted` A
* C29 Overlapping columns are rejected (partial): `overlap_report_sound` A, `overlap_of_two_columns_reported_partial` A, `overlap_of_one_column_refuted` A, `overlap_empty_group_refuted` A
* C30 Column reorganisation (proved): `columns_moved_keep_values` A, `short_record_undefined` A
* C31 Label encoding (proved): `label_one_hot` D, `label_round_trip` D, `label_unknown_throws` D, `decode_best_is_maximum` D, `file_labels_complete` D, `file_labels_two_columns_refuted` D
* C32 Number scaling is undone on output (proved): `scaling_undone` B, `rescaling_is_scaling` B, `constant_column_is_nan` D
* C33 Streaming statistics (proved): `streamed_statistics` C, `view_mean_refuted` B
* C34 Normalised dataset values lie in [0,1] (partial): `normalised_in_unit_interval_partial` C, `normalised_float_in_unit_interval` D, `normalised_in_unit_interval_refuted` C
* C35 Lexer (proved): `lex_correct` A, `lex_splitting_unique` A, `lex_partition` A, `lex_token_values` A, `lex_minus_refuted` A, `lex_dot_never` A, `lex_trailing_backslash_refuted` A
* C36 Parser is total (proved): `parse_accepts` A, `script_unique` A, `parse_total` A, `parse_errors_escape_refuted` A, `parse_surprises_refuted` A
* C37 Script execution order (partial): `block_in_order_partial` A, `block_complete_run` A, `parse_error_runs_nothing` A, `exit_ends_session` A, `exit_runs_on_refuted` A, `files_go_on_refuted` A, `blank_line_refuted` A, `continued_lines` A
* C38 String literals (proved): `string_literal_value` A, `stands_for_unique` A, `string_literal_texts` A
* C39 Layout views preserve elements (partial): `transpose_twice` A, `rotate_twice` A, `reshape_keeps_order` A, `flatten_places` A, `flatten_then_reshape_partial` A, `flatten_then_reshape_channels_refuted` A, `windows_of_concat` A, `concat_of_windows` A, `window_accepts` A, `channel_view` A, `zero_pad_frames` A, `materialize_copies` A, `views_stay_inside` A, `row_values_channel_refuted` A, `unchecked_channels_refuted` A, `diagonal_of_vector_refuted` A
* C40 Matrix algebra (proved): `product_is_the_sum` A, `dot_product_is_the_sum` A, `outer_product_is_the_product` A, `product_associative` A, `product_distributes` A, `product_transposed` A
* C41 Matrix inverse (proved): `inverse_correct` A, `inverse_correct_rationals` A, `inverse_not_square_refuted` A
* C42 Convolution gradients have the right shape (partial): `full_convolution_shape` A, `valid_correlation_is_the_sum` A, `full_convolution_is_the_sum_partial` A, `conv_forward_is_the_sum` A, `conv_weight_gradient_partial` A, `conv_input_gradient_partial` A, `conv_gradient_channels_refuted` A, `conv_gradient_kernel_refuted` A
* C43 Conditional selection (partial): `masked_select_above_partial` A, `masked_select_below_refuted` A, `masked_select_refuted` A
* C44 Elementwise division of matrices (partial): `divide_elements_partial` A, `matrix_divide_refuted` A
* C45 Tensor reductions (proved): `sum_is_the_sum` A, `product_is_the_product` A, `max_is_the_largest` D, `min_is_the_smallest` D, `range_is_min_and_max` A, `index_of_max_by_row` D, `index_of_max_by_col` D, `index_of_min` D, `indices_of_max` D, `indices_of_min` D, `top_indices_are_the_largest` D, `mean_is_the_average` B, `standard_deviation_is_the_root_of_the_variance` C, `variance_is_the_variance` B, `norm_is_the_root_of_the_squares` C, `norm_of_zero_refuted` C, `geometric_mean_is_the_root_of_the_product` D, `geometric_mean_needs_positive` D
* C46 Softmax output is a distribution (proved): `softmax_formula` C, `softmax_is_a_distribution` C, `softmax_shift_invariant` C, `softmax_keeps_order` D
* C47 Activation ranges and derivatives (partial): `activation_elementwise` C, `activation_range_and_order` D, `tanh_approx_exact` C, `activation_derivative_partial` D, `sigmoid_approx_derivative_refuted` D, `activation_backward_single` C, `activation_backward_batch` C
* C48 Losses (partial): `mse_measures_the_error` B, `mse_gradient` D, `mse_descends` B, `mae_measures_the_error_partial` B, `mae_descends_refuted` B, `mae_gradient_refuted` D, `smae_measures_the_error_partial` B, `smae_is_smooth_absolute_error_refuted` B, `smae_gradient` D, `smae_descends` B, `bce_measures_the_error` D, `bce_gradient` D, `bce_descends` D, `cce_measures_the_error` D, `cce_descends` D, `cce_of_softmax_gradient` D, `cce_through_softmax_layer_refuted` D
* C49 Early stopping (proved): `stopping_rule` D, `reported_reason_holds` D, `training_ends` D, `stops_when_out_of_patience` D
* C50 Batching (partial): `epoch_in_batches` A, `epoch_completes` A, `number_of_updates` A, `bad_batch_size` D, `batch_size_zero_refuted` A, `epoch_loss_average_partial` B, `epoch_loss_last_batch_refuted` B
* C51 Best-policy training (proved): `best_network_kept` D, `last_network_kept` D, `training_terminates` D, `no_best_network_refuted` D
* C52 Forward pass over a network graph (partial): `prediction_computes_the_values_partial` A, `predictions_are_independent` A, `wrong_number_of_inputs` A, `failed_prediction_refuted` A
* C53 Error averaging at fan-out (partial): `errors_are_sent_back_partial` A, `error_average_refuted` B, `fork_average_refuted` B
* C54 Knowledge of every node is saved and loaded (partial): `every_layer_is_saved_and_loaded_partial` A, `dead_end_saving_refuted` A
* C55 A saved model reloads as the same model (partial): `saved_model_reloads_partial` D, `build_succeeds` D, `saved_records_complete` D, `layer_files_distinct` A, `layer_by_layer_refuted` D, `inputs_first_refuted` D, `skip_connection_refuted` D, `joins_reordered_refuted` D, `tiny_rates_refuted` D
* C56 Saving a model survives a crash (partial): `save_replaces` A, `save_crash_partial` A, `save_crash_refuted` A, `half_saved_task_refuted` A
* C57 Parameter count (proved): `parameters_are_counted_once` A, `reachable_is_node` A
* C58 Hyperband keeps the better configurations (partial): `search_rounds` A, `search_ends_partial` A, `search_with_factor_one_refuted` A, `factor_below_one` A, `elimination_keeps_the_worst_refuted` A, `the_best_is_eliminated_refuted` A
* C59 Task search ends (partial): `search_ends_accurate_partial` A, `search_ends_refuted` A, `search_after_failures_refuted` A, `grid_is_distinct` A
* C60 Predictions use all inputs (proved): `execute_uses_all_inputs` A
* C61 Tables are aligned (partial): `fitting_row_aligned_partial` A, `header_and_first_row_aligned` A, `later_row_aligned_refuted` A
* C62 One-hot token encoding (partial): `one_hot_bpe_partial` D, `one_hot_bpe_boundary` D, `one_hot_trained_model` D, `one_hot_loaded_model_refuted` D, `one_hot_characters` D, `one_hot_characters_high_byte` D, `one_hot_words` D, `pad_or_truncate_spec` D
* C63 Long text split keeps the text (partial): `txt_split_loses_no_word` A, `txt_split_words_partial` A, `txt_split_record_length` A, `txt_split_words_refuted` A, `txt_split_empty_record` A
* C64 Query inputs are encoded like training data (partial): `query_numbers_same_values_partial` D, `query_square_numbers_same_tensor` D, `query_labels_same_values` D, `query_labels_same_tensor_refuted` D, `query_images_refuted` D
* C65 Pixel storage (proved): `pixel_store_defined` D, `pixel_store_twice` D, `pixel_store_error` D, `pixel_store_clamps` D
* C66 Optimizer state is kept per layer (partial): `ids_are_different` C, `adam_state_is_per_layer` C, `momentum_state_is_per_layer_partial` C, `filters_share_momentum_refuted` C
* C67 Token embedding (proved): `embed_tokens_spec` D
* C68 Training time limit (partial): `time_limit_refuted` D
* C69 A network can be trained again (partial): `second_training_refuted` D
* C70 Training report (partial): `best_network_kept` D, `last_network_kept` D, `training_report_partial` D, `last_policy_report_refuted` D
* C71 Every layer is updated once per batch (partial): `every_layer_is_updated_once_partial` A, `updates_follow_every_way` A, `shared_layer_update_refuted` A
* C72 Errors reach every layer (partial): `errors_are_sent_back_partial` A, `dead_end_refuted` A
* C73 Hyperparameter search returns the best model it trained (partial): `the_best_model_is_returned_partial` A, `single_configuration_refuted` A
* C74 Hyperparameter search tries different configurations (proved): `configurations_are_different` A, `all_configurations_different` A, `configurations_fit` A, `configurations_as_asked` A, `batch_sizes_fit` A
* C75 Optimizer steps have the documented size (partial): `sgd_changes_partial` C, `adam_step_is_bounded` C, `rates_stay_in_range` C, `decaying_rate_grows_refuted` C, `adam_first_step_refuted` C, `batch_is_not_averaged_refuted` C
* C76 Layer errors are derivatives (partial): `fc_input_gradient` B, `fc_weight_gradient` B, `bias_gradient` B, `concat_gradient` B, `concat_refuses` A, `flatten_gradient_partial` B, `flatten_channels_refuted` A, `flatten_single_row_refuted` A
* C77 A batch moves the parameters by the average gradient (proved): `fc_batch_descends` B, `fc_several_inputs` B, `bias_batch_descends` B, `nothing_to_apply` B
* C78 Dropout (partial): `dropout_drops_nothing_refuted` B, `dropout_prediction_refuted` B, `dropout_rates_partial` B
* C79 Normalization layer (partial): `normalization_is_affine_partial` C, `normalization_centre_refuted` C, `normalization_gradient_refuted` C
* C80 Concatenated inputs keep their order (partial): `joined_inputs_in_order_partial` D, `joined_out_of_order_refuted` D, `joined_join_refuted` D
* C81 Task search keeps the best combinations (proved): `best_combinations_kept` A, `whole_data_reached` A
* C82 Saving without overwriting (partial): `no_overwrite_keeps_old_partial` A, `no_overwrite_refuted` A
* C83 Categorical accuracy is the fraction of correct records (partial): `categorical_accuracy_partial` D, `category_right_iff` D, `accuracy_of_many_refuted` D, `accuracy_of_none_refuted` D
* C84 Binary accuracy is the fraction of correct records (partial): `binary_accuracy_partial` D, `binary_accuracy_outputs_partial` D, `binary_accuracy_refuted` D, `binary_accuracy_two_outputs_refuted` D, `accuracy_of_none_refuted` D
* C85 Tensor statistics do not depend on the threads (partial): `bag_counts_partial` A, `threads_cover_tensor` A, `last_thread_decides_refuted` A, `maximum_of_threads_refuted` A
* C86 Quarter and percentile values are order statistics (partial): `quarters_are_order_statistics_partial` A, `bag_value` A, `ten_to_ninety_partial` A, `ten_to_ninety_refuted` A, `ninety_percent_refuted` A, `no_numbers_refuted` A
* C87 The recommended bias and offset cover the tensor (partial): `recommended_window_partial` A, `recommended_covers_partial` A, `recommended_fits_partial` A, `recommended_covers_refuted` A
* C88 Initial weights have the size of the scheme (partial): `initial_weights_bounded` D, `xavier_variance_refuted` D, `random_tensor_bounded_partial` D, `random_tensor_of_one_value_refuted` D
* C89 Layers, filters and neurons start from different weights (partial): `neurons_differ_partial` C, `layers_differ_partial` C, `layers_differ_sgd_refuted` C, `filters_differ_refuted` C, `far_seeds_refuted` C
* C90 Creating a dataset leaves other files alone (partial): `create_dataset_keeps_files_partial` A, `create_dataset_keeps_source` A, `neighbours_lost_refuted` A, `text_source_refuted` A, `text_source_destroys_refuted` A
* C91 A dataset that is there is complete (partial): `created_dataset_is_there_partial` A, `create_after_crash_partial` A, `interrupted_dataset_refuted` A
* C92 A dataset is made of the records of its file (partial): `dataset_of_records_partial` A, `folderless_source_refuted` A
* C93 A tensor kept in fewer bits stays close (partial): `eight_bits_error_partial` A, `sixteen_bits_error` A, `thirty_two_bits_exact` A
* C94 Weights saved and loaded keep their values (partial): `reload_16_and_32_bits` A, `reload_8_bits_partial` A, `reload_8_bits_large_partial` A, `reload_8_bits_refuted` A, `reload_8_bits_wider_refuted` A
* C95 A tensor made from nested lists has their values (partial): `list_tensor_exact` A, `list_tensor_partial` A, `row_tensor_partial` A, `ragged_list_refuted` A
* C96 Creating a task touches nothing else (partial): `create_task_keeps_partial` A, `create_task_log` A, `existing_task_kept` A, `other_tasks_lost_refuted` A
* C97 A task reported as created can be executed (partial): `created_task_partial` A, `repeated_creation_partial` A, `interrupted_task_refuted` A, `existing_task_refuted` A
* C98 Executing a task on a dataset predicts what typing its records predicts (partial): `dataset_execution_partial` D, `dataset_execution_scaled_as_first` D, `own_dataset_refuted` D, `label_beside_number_refuted` D, `other_dataset_refuted` D, `other_labels_refuted` D, `no_expected_columns_undefined` D
* C99 Printing a dataset shows its records (partial): `print_shows_partial` B, `print_raw` B, `negative_limit_shows_all` B
