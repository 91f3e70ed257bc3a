(** Model of the column encoders and decoders: src/training_data/data_encoder.hpp,
    src/training_data/data_decoder.hpp:101-139, src/util/dataset_utils.hpp:46-65 and the input
    building of src/util/task_utils.hpp:66-143. A tensor is its [data] member: channels, rows,
    columns (src/types/tensor_impls/full_tensor.hpp:160). *)
From Coq Require Import List Bool Arith NArith ZArith Ascii.
From Flocq Require Import IEEE754.Binary IEEE754.Bits.
From Verif Require Import Outcome Chars Delimited_Model F32_Model Pixel_Model Scaling_Model.
Import ListNotations.

Definition grid := list (list (list binary32)).
Definition f0 : binary32 := of_Z 0.
Definition f1 : binary32 := of_Z 1.

(** Three nested loops over channel, first and second dimension. *)
Definition build3 {A} (channels d1 d2 : nat) (f : nat -> nat -> nat -> outcome A) : outcome (list (list (list A))) :=
  omapM (fun ch => omapM (fun i => omapM (fun j => f ch i j) (seq 0 d2)) (seq 0 d1)) (seq 0 channels).

(** ** Labels *)
(** src/training_data/data_encoder.hpp:223-228: a [map<string,size_t>]; a later index overwrites. *)
Definition category_mapping (labels : list str) : list (str * nat) :=
  fold_left (fun m p => (fst p, snd p) :: filter (fun q => negb (seq_eqb (fst q) (fst p))) m) (combine labels (seq 0 (length labels))) [].
(** [map::at] throws [out_of_range]. *)
Definition map_at (m : list (str * nat)) (k : str) : outcome nat :=
  match find (fun q => seq_eqb (fst q) k) m with Some q => Ok (snd q) | None => Throw end.

(** src/training_data/data_encoder.hpp:234-275 [TextToUniqueCategoryEncoder::encode]. *)
Definition category_encode (labels : list str) (words : list str) (rows columns channels : nat) (trim : bool) : outcome grid :=
  let m := category_mapping labels in
  if negb (channels =? 1)%nat then Throw else
  if negb (length words =? rows)%nat then Throw else
  if negb (columns =? length m)%nat then Throw else
  do offsets <- omapM (fun word => do o <- map_at m (if trim then strip word else word);
                                   if (columns <=? o)%nat then Throw else Ok o) words;
  Ok [map (fun o => map (fun c => if (c =? o)%nat then f1 else f0) (seq 0 columns)) offsets].
(** src/training_data/data_encoder.hpp:277-279. *)
Definition category_shape (labels : list str) (rows : nat) : nat * nat * nat := (rows, length (category_mapping labels), 1%nat).

(** src/util/dataset_utils.hpp:46-65 [get_distinct_values]; [order] is the order in which the
    [unordered_set] is enumerated. *)
Definition column_texts (records : list (list str)) (columnIndex : nat) (trim : bool) : list str :=
  flat_map (fun record => match nth_error record columnIndex with Some v => [if trim then strip v else v] | None => [] end) records.

(** src/types/base_tensors.hpp:349-361 [maxIndexByRow]; the row's values, [-INFINITY] to start. *)
Definition neg_inf : binary32 := B754_infinity 24 128 true.
Fixpoint max_index_loop (col : nat) (currentMax : binary32) (result : nat) (row : list binary32) : nat :=
  match row with
  | [] => result
  | nextVal :: r => if fgt nextVal currentMax then max_index_loop (S col) nextVal col r else max_index_loop (S col) currentMax result r
  end.
Definition max_index (row : list binary32) : nat := max_index_loop 0 neg_inf 0 row.

(** src/training_data/data_decoder.hpp:116-123 [BestTextCategoryDecoder::decodeBest]; row 0 of
    channel 0, an empty tensor has no column to look at. *)
Definition first_row (t : grid) : list binary32 :=
  match t with (row :: _) :: _ => row | _ => [] end.
Definition decode_best (labels : list str) (t : grid) : outcome str :=
  match nth_error labels (max_index (first_row t)) with Some l => Ok l | None => Throw end.

(** ** Numbers and images *)
Section Numbers.
(** [stringToFloat], src/training_data/data_encoder.hpp:47-57: any conversion. *)
Variable stringToFloat : str -> outcome binary32.
(** What a [PixelTensor] returns for a value put into it (C65). *)
Definition pixel (v : binary32) : binary32 := match pixel_store v with Ok k => pixel_value k | _ => v end.

(** src/training_data/data_encoder.hpp:194-218 [TextToScalarEncoder::encode]; [offset] counts the
    elements; [words\[offset\]] is unchecked. *)
Definition scalar_encode (words : list str) (rows columns channels : nat) (trim : bool) : outcome grid :=
  build3 channels rows columns (fun channel row column =>
    do w <- vec_at words ((channel * rows + row) * columns + column)%nat; stringToFloat (if trim then strip w else w)).

(** src/training_data/data_encoder.hpp:162-191 [TextToPixelEncoder::encode]. *)
Definition f255 : binary32 := of_Z 255.
Definition pixel_encode (words : list str) (rows columns channels : nat) (trim : bool) : outcome grid :=
  build3 channels rows columns (fun channel row column =>
    do w <- vec_at words ((channel * rows + row) * columns + column)%nat;
    do v <- stringToFloat (if trim then strip w else w); Ok (pixel (fdiv v f255))).

(** A user supplied value (src/lang/happyml_variant.hpp): its text and its reading as a float. *)
Record variant := { to_string : str; as_float : outcome binary32 }.

Inductive purpose := Image | Text | Number | Label.
(** Members of src/util/column_metadata.hpp:10-27 used here. *)
Record column := { c_purpose : purpose; c_rows : nat; c_columns : nat; c_channels : nat; c_scaling : scaling float32; c_labels : list str; c_name : str }.

Definition map3 {A B} (f : A -> B) (t : list (list (list A))) : list (list (list B)) := map (map (map f)) t.

(** Index of the first label equal to the text, src/training_data/data_encoder.hpp:117-126. *)
Fixpoint label_index (i : nat) (labels : list str) (s : str) : option nat :=
  match labels with [] => None | l :: r => if seq_eqb l s then Some i else label_index (S i) r s end.

(** src/training_data/data_encoder.hpp:79-147 [HappyMLVariantEncoder::encode]: the dimensions are
    nested channel, column, row. The label loop returns in its first round. *)
Definition variant_encode (c : column) (text : list variant) : outcome grid :=
  match c_purpose c with
  | Image => omap (map3 pixel) (build3 (c_channels c) (c_columns c) (c_rows c) (fun channel column row =>
               do v <- vec_at text (channel * c_columns c * c_rows c + column * c_rows c + row)%nat; as_float v))
  | Text => Throw
  | Number => omap (map3 (scale float32 (c_scaling c))) (build3 (c_channels c) (c_columns c) (c_rows c) (fun channel column row =>
               do v <- vec_at text (channel * c_columns c * c_rows c + column * c_rows c + row)%nat; as_float v))
  | Label =>
    match text with
    | [] => Throw
    | next_text :: _ =>
      match label_index 0 (c_labels c) (to_string next_text) with
      | None => Throw
      | Some column_offset => build3 (c_channels c) (c_columns c) (c_rows c) (fun _ column _ => Ok (if (column =? column_offset)%nat then f1 else f0))
      end
    end
  end.

(** The tensor stored in a dataset for the same column: the encoders above, then
    src/util/dataset_utils.hpp:255-270. *)
Definition dataset_encode (c : column) (words : list str) : outcome grid :=
  match c_purpose c with
  | Image => pixel_encode words (c_rows c) (c_columns c) (c_channels c) true
  | Text => Throw
  | Number => omap (map3 (scale float32 (c_scaling c))) (scalar_encode words (c_rows c) (c_columns c) (c_channels c) true)
  | Label => category_encode (c_labels c) words (c_rows c) (c_columns c) (c_channels c) true
  end.
End Numbers.

(** ** Inputs of a task *)
(** [inputs] is the lookup in the [unordered_map]; [encode] any encoder per column.
    src/util/task_utils.hpp:66-86 [build_given]. *)
Section Given.
Variables (col V T : Type).
Variable lower_name : col -> str.
Variable encode : col -> V -> outcome T.
Fixpoint build_given (inputs : str -> option V) (encoders : list col) : outcome (list T) :=
  match encoders with
  | [] => Ok []
  | e :: r =>
    match inputs (lower_name e) with
    | None => Ok []
    | Some user_input =>
      match encode e user_input with
      | Throw => Ok []
      | UB => UB
      | Ok t => do ts <- build_given inputs r; Ok (t :: ts)
      end
    end
  end.

(** src/util/task_utils.hpp:108-154: [None] is the error message and [return false]; [predict] gets
    the tensors. *)
Definition execute_with_inputs {P} (predict : list T -> P) (inputs : str -> option V) (encoders : list col) : outcome (option P) :=
  do given_values <- build_given inputs encoders;
  if (length given_values =? length encoders)%nat then Ok (Some (predict given_values)) else Ok None.
End Given.
