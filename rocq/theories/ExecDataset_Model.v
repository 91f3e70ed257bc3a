(** Model of showing the records of a dataset and of executing a task on a dataset:
    src/util/pretty_print_row.hpp:76-159, src/util/encoder_decoder_builder.hpp:16-85,
    src/util/task_utils.hpp:88-210, src/lang/statements/print_statement.hpp:20-32.
    Numbers are reals (exact arithmetic). A tensor is the list of its values; how values become
    text and how the cells are padded is left out (C61 has the table). *)
From Coq Require Import Reals List Bool Arith NArith ZArith.
From Verif Require Import Chars Outcome TensorFile_Model F32_Model Scaling_Model Encode_Model DataSet_Model.
Import ListNotations.
Open Scope R_scope.

(** Members of src/util/column_metadata.hpp:10-27 used here. *)
Record meta := { m_purpose : purpose; m_scaling : scaling exact; m_labels : list str }.

(** What a cell shows: a label, the values of a tensor, or a picture made of its values
    (src/training_data/data_decoder.hpp:145-225, not opened up here). *)
Inductive cell := ShowLabel (text : str) | ShowValues (values : list R) | ShowImage (values : list R).

(** The decoders of src/training_data/data_decoder.hpp:41-145. *)
Inductive decoder := RawDecoder (unscaled : list R -> list R) | BestTextCategoryDecoder (categoryLabels : list str) | ImageDecoder.

(** src/util/encoder_decoder_builder.hpp:16-42 [build_decoder]; [RawDecoder()] neither denormalises nor
    unstandardises (src/training_data/data_decoder.hpp:42-70). *)
Definition build_decoder (raw : bool) (m : meta) : decoder :=
  if raw then RawDecoder (fun t => t)
  else match m_purpose m with
       | Label => BestTextCategoryDecoder (m_labels m)
       | Number => RawDecoder (map (unscale exact (m_scaling m)))
       | Image => ImageDecoder
       | Text => RawDecoder (fun t => t)
       end.

(** src/types/base_tensors.hpp:349-361 [maxIndexByRow], for finite values: the first value is above
    [-INFINITY]. *)
Fixpoint max_index_from (col : nat) (currentMax : R) (result : nat) (row : list R) : nat :=
  match row with
  | [] => result
  | nextVal :: r => if Rlt_dec currentMax nextVal then max_index_from (S col) nextVal col r else max_index_from (S col) currentMax result r
  end.
Definition max_index (row : list R) : nat := match row with [] => 0%nat | v :: r => max_index_from 1 v 0 r end.

(** src/util/pretty_print_row.hpp:76-95 [record_to_strings] with
    src/training_data/data_decoder.hpp:116-123 [decodeBest]. *)
Definition record_to_strings (d : decoder) (record : list R) : outcome cell :=
  match d with
  | ImageDecoder => Ok (ShowImage record)
  | BestTextCategoryDecoder categoryLabels =>
    match nth_error categoryLabels (max_index record) with Some l => Ok (ShowLabel l) | None => Throw end
  | RawDecoder unscaled => Ok (ShowValues (unscaled record))
  end.

(** src/util/pretty_print_row.hpp:97-106 [record_group_to_strings]: [decoders\[record_index\]] is
    unchecked. *)
Fixpoint record_group_to_strings (decoders : list decoder) (record_group : list (list R)) : outcome (list cell) :=
  match record_group with
  | [] => Ok []
  | record :: rs =>
    match decoders with
    | [] => UB
    | d :: ds => do c <- record_to_strings d record; do cs <- record_group_to_strings ds rs; Ok (c :: cs)
    end
  end.

(** src/util/pretty_print_row.hpp:108-122 [pretty_print_merge_records]. *)
Definition merge_records (expected_decoders : list decoder) (expected : list (list R)) (given_decoders : list decoder) (given : list (list R)) : outcome (list cell) :=
  do e <- record_group_to_strings expected_decoders expected;
  do g <- record_group_to_strings given_decoders given;
  Ok (e ++ g).

(** A dataset file: metadata of the given and of the expected columns, and the stored tensors of
    every row. *)
Record dataset := { given_metadata : list meta; expected_metadata : list meta; rows : list (list (list R) * list (list R)) }.

(** src/util/file_reader.hpp:258-269 and 271-282: [given_offset] stays 0, so that every column is
    rescaled to the first column's metadata; nothing is rescaled without such metadata. *)
Definition load_group (renormalize metadata : list meta) (stored : list (list R)) : list (list R) :=
  match renormalize with
  | [] => stored
  | other :: _ => map (fun p => map (rescale exact (m_scaling (fst p)) (m_scaling other)) (snd p)) (combine metadata stored)
  end.
(** src/util/file_reader.hpp:247-284 [readRow], an index in range. *)
Definition read_row (renorm_given renorm_expected : list meta) (d : dataset) (row : list (list R) * list (list R)) : list (list R) * list (list R) :=
  (load_group renorm_given (given_metadata d) (fst row), load_group renorm_expected (expected_metadata d) (snd row)).

(** src/util/pretty_print_row.hpp:135-158 [pretty_print]: the rows of cells; [limit] is an [int],
    [(size_t) limit] wraps. The reader has no metadata to rescale to (src/lang/statements/print_statement.hpp:23-26). *)
Definition max_result_rows (row_count : nat) (limit : Z) : nat :=
  if (limit =? -1)%Z then row_count else N.to_nat (N.min (N.of_nat row_count) (Z.to_N (limit mod 2 ^ 64))).
Definition pretty_print (d : dataset) (limit : Z) (raw : bool) : outcome (list (list cell)) :=
  omapM (fun row => let (given, expected) := read_row [] [] d row in
                    merge_records (map (build_decoder raw) (expected_metadata d)) expected (map (build_decoder raw) (given_metadata d)) given)
        (firstn (max_result_rows (length (rows d)) limit) (rows d)).

Section Execute.
(** The loaded network (src/util/task_utils.hpp:176-177), any function. *)
Variable predict : list (list R) -> outcome (list (list R)).

(** src/util/task_utils.hpp:194-208, the loop: a row of cells per record. *)
Definition show_predictions (d : dataset) (record : list (list R) * list (list R)) : outcome (list cell) :=
  let given_values := fst record in
  do predictions <- predict given_values;
  merge_records (map (build_decoder false) (expected_metadata d)) predictions (map (build_decoder false) (given_metadata d)) given_values.

(** src/util/task_utils.hpp:179-210 [execute_task_with_dataset], a task that exists: the dataset's own metadata
    is used for rescaling and for decoding. [shuffled] is what the split shuffler holds
    (src/training_data/training_dataset.hpp:72-92). Rows printed before an exception are not
    modelled: the outcome is the exception. *)
Definition execute_with_dataset (shuffled : list nat) (d : dataset) : outcome (list (list cell)) :=
  let read := map (read_row (given_metadata d) (expected_metadata d) d) (rows d) in
  do range <- split_range (N.of_nat (length (rows d))) (of_Z 1);
  do records <- drain (next_binary {| file_rows := read; split_shuffler := shuffled;
                                      first_record_offset := N.to_nat (fst range); record_count := N.to_nat (snd range) |} None)
                      (S (N.to_nat (snd range))) 0;
  omapM (show_predictions d) records.

(** src/util/task_utils.hpp:155-158, the end of [execute_task_with_inputs]: the encoded inputs are handed to the
    network, the predictions are decoded with the metadata of the task's own dataset. *)
Definition execute_with_inputs (task_expected : list meta) (given_values : list (list R)) : outcome (list cell) :=
  do predictions <- predict given_values;
  record_group_to_strings (map (build_decoder false) task_expected) predictions.
End Execute.

(** A value of a record as a user writes it. *)
Inductive value := Numbers (xs : list R) | Word (s : str).
(** The tensor of a value, both when a dataset is created (src/util/dataset_utils.hpp:249-270) and when it is
    typed (src/training_data/data_encoder.hpp:79-147): numbers scaled, a label as a one and zeros.
    [None]: no such value in this column. Pictures: the values are those after division by 255. *)
Definition encode (m : meta) (v : value) : option (list R) :=
  match m_purpose m, v with
  | Number, Numbers xs => Some (map (scale exact (m_scaling m)) xs)
  | Image, Numbers xs => Some xs
  | Label, Word s => option_map (fun o => map (fun c => if (c =? o)%nat then 1 else 0) (seq 0 (length (m_labels m)))) (label_index 0 (m_labels m) s)
  | _, _ => None
  end.
