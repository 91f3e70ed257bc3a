(** Model of running a task on fields the user types: src/lang/statements/execute_task_statement.hpp:22-60,
    src/util/task_utils.hpp:66-162 and the messages they print. An [unordered_map] is the list of its elements in the order in which
    it is enumerated. *)
From Coq Require Import Ascii String List Bool Arith.
From Flocq Require Import IEEE754.Binary IEEE754.Bits.
From Verif Require Import Outcome Chars Delimited_Model Encode_Model.
Import ListNotations.

Notation fields := (list (str * list variant)).

(** [std::transform(..., ::tolower)], src/util/task_utils.hpp:71. *)
Definition lower (s : str) : str := map tolower s.

(** [unordered_map::find] and [at]. *)
Definition input_at (inputs : fields) (key : str) : option (list variant) :=
  option_map snd (find (fun q => seq_eqb (fst q) key) inputs).

(** src/lang/parser/parser.hpp:375-377: the fields in the order in which they are typed; a later one replaces an earlier one. The place
    of an element in the [unordered_map] is not modelled. *)
Definition enter (inputs : fields) (field : str * list variant) : fields :=
  let key := lower (fst field) in
  filter (fun q => negb (seq_eqb (fst q) key)) inputs ++ [(key, snd field)].
Definition entered (typed : fields) : fields := fold_left enter typed [].

(** The texts of the exceptions of [HappyMLVariantEncoder::encode], src/training_data/data_encoder.hpp:94,127,145 and
    src/lang/happyml_variant.hpp:92. The parser makes texts and floats only (src/lang/parser/parser.hpp:348-372), of which the floats convert. The elements are read
    in the order of the values, so the first that is no number is the one in the text. *)
Definition throws {A} (x : outcome A) : bool := match x with Throw => true | _ => false end.
Definition encode_what (metadata : column) (text : list variant) : str :=
  match c_purpose metadata with
  | Image | Number => match find (fun v => throws (as_float v)) text with
                      | Some v => lit "Cannot convert to float: " ++ to_string v
                      | None => []
                      end
  | Text => lit "Text encoding not implemented yet."
  | Label => match text with
             | [] => lit "Unknown purpose L for column: " ++ c_name metadata
             | next_text :: _ => lit "Unknown label " ++ to_string next_text ++ lit " for column: " ++ c_name metadata
             end
  end.

(** src/util/task_utils.hpp:66-86 [build_given], with what it prints. *)
Fixpoint build_given_printing (user_inputs : fields) (encoders : list column) : outcome (str * list grid) :=
  match encoders with
  | [] => Ok ([], [])
  | encoder :: r =>
    match input_at user_inputs (lower (c_name encoder)) with
    | None => Ok ([], [])
    | Some user_input =>
      match variant_encode encoder user_input with
      | Throw => Ok (lit "Error while encoding input: " ++ encode_what encoder user_input ++ [NL], [])
      | UB => UB
      | Ok given_tensor => do rest <- build_given_printing user_inputs r; Ok (fst rest, given_tensor :: snd rest)
      end
    end
  end.

(** src/util/task_utils.hpp:112-149: the two loops that write [message] with a delimiter. *)
Definition write (skip : bool) (name : str) (st : str * str * bool) : str * str * bool :=
  let '(message, delim, found_one) := st in
  if skip then st else (message ++ delim ++ name, lit ",", true).
Definition has {A} (x : option A) : bool := match x with Some _ => true | None => false end.
Definition explanation (inputs : fields) (given_column_names : list str) : str :=
  let '(message, _, found_one) :=
    fold_left (fun st given_column_name => write (has (input_at inputs (lower given_column_name))) given_column_name st)
      given_column_names ([], lit "You did not provide the fields: ", false) in
  let message := if found_one then message ++ lit ". " else message in
  let lower_given_column_names := map lower given_column_names in
  let '(message, _, found_one) :=
    fold_left (fun st input => write (existsb (fun n => seq_eqb n (lower (fst input))) lower_given_column_names) (fst input) st)
      inputs (message, lit "You provided the invalid fields: ", false) in
  if found_one then message ++ lit "." else message.

(** A task on disk: its given columns (build_given_encoders and get_given_names make one of each per column, src/util/encoder_decoder_builder.hpp:53-62)
    and what it prints for their tensors (src/util/task_utils.hpp:152-161: the prediction, decoded, as a table). *)
Record task := { given_columns : list column; answer : list grid -> outcome str }.

(** src/util/task_utils.hpp:88-162 [execute_task_with_inputs]: what it prints and returns. [on_disk] is [None] if the folder of the task
    does not exist; loading it may throw. *)
Definition execute_task_with_inputs (on_disk : option (outcome task)) (task_name : str) (inputs : fields) : outcome (str * bool) :=
  match on_disk with
  | None => Ok (lit "Task " ++ task_name ++ lit " does not exists. Skipping." ++ [NL], false)
  | Some loaded =>
    do t <- loaded;
    let out := lit "Results: " ++ [NL] in
    do given <- build_given_printing inputs (given_columns t);
    let out := out ++ fst given in
    let given_column_names := map c_name (given_columns t) in
    if negb (List.length (snd given) =? List.length given_column_names)%nat
    then Ok (out ++ explanation inputs given_column_names ++ [NL], false)
    else do table <- answer t (snd given); Ok (out ++ table, true)
  end.

(** [ExecutionResult] with what was printed before. *)
Record execution := { printed : str; successful : bool; message : str }.

(** src/lang/statements/execute_task_statement.hpp:46-57: the values of the fields in the message. *)
Definition values_text (val : list variant) : str :=
  fst (fold_left (fun '(vals, delim) v => (vals ++ delim ++ to_string v, lit ", ")) val ([], [])).
Definition inputs_text (inputs : fields) : str :=
  fold_left (fun inputs_stream kv => inputs_stream ++ lit "  " ++ fst kv ++ lit ": " ++ values_text (snd kv) ++ [NL]) inputs [].

(** src/lang/statements/execute_task_statement.hpp:22-60; [with_dataset] is [execute_task_with_dataset]. *)
Definition execute_task (on_disk : option (outcome task)) (with_dataset : outcome (str * bool)) (task_name dataset_name : str) (input_map : fields) : outcome execution :=
  match input_map with
  | [] =>
    if seq_eqb dataset_name [] then
      Ok {| printed := []; successful := false; message := lit "Failed to execute task " ++ task_name ++ lit " because no input or dataset was provided." |}
    else
      do r <- with_dataset;
      if negb (snd r) then Ok {| printed := fst r; successful := false; message := lit "Failed to execute task " ++ task_name |}
      else Ok {| printed := fst r; successful := true; message := lit "Complete." |}
  | _ :: _ =>
    do r <- execute_task_with_inputs on_disk task_name input_map;
    if negb (snd r) then
      Ok {| printed := fst r; successful := false;
            message := lit "Failed to execute task " ++ task_name ++ lit " with inputs:" ++ [NL] ++ inputs_text input_map |}
    else Ok {| printed := fst r; successful := true; message := lit "Complete." |}
  end.
