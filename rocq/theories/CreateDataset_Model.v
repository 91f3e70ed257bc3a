(** Model of the statement that creates a dataset: which files it reads, writes and removes
    (src/lang/statements/create_dataset_statement.hpp, src/lang/execution_context.hpp).

    Simplifications, for every definition in this file: a file is found by the text of its path, so different texts are
    different files; folders are left out, except that [can_write] says which files can be opened for writing; a file is
    written byte by byte, every other operation is atomic, and what has been written stays if the process is killed; removing
    a file fails only if it is not there. *)
From Coq Require Import List Arith NArith Bool String Ascii DecimalString.
From Verif Require Import Outcome Chars Lines_Model Delimited_Model FileSort_Model Columns_Model.
Import ListNotations.

Notation files := (str -> option str).
Inductive op := Truncate (p : str) | Append (p : str) (c : ascii) | Remove (p : str).

(** The members of [ColumnGroup] (src/training_data/training_dataset.hpp:289-331) that decide here. *)
Record column_group := { data_type : str; use : str; start : N; count : N; id : N }.
(** How a statement ends; [Undefined]: its execution has no meaning. *)
Inductive result := Succeeded | Failed | Thrown | Undefined.

Definition put (fs : files) (p : str) (e : option str) : files := fun q => if seq_eqb p q then e else fs q.
(** [filesystem::exists], or that a file can be opened for reading *)
Definition present (fs : files) (p : str) : bool := match fs p with Some _ => true | None => false end.
(** Opening a file for writing, writing [content] and closing it. *)
Definition write_file (p : str) (content : str) : list op := Truncate p :: map (Append p) content.

(** The text before the last [c] and that after it. *)
Fixpoint split_last (c : ascii) (s : str) : option (str * str) :=
  match s with
  | [] => None
  | x :: t => match split_last c t with
              | Some (a, b) => Some (x :: a, b)
              | None => if ceq x c then Some ([], t) else None
              end
  end.
(** [std::filesystem::path(file_name).parent_path().string()]; separators before the last are kept. *)
Definition parent_path (file_name : str) : str := match split_last "/" file_name with Some (a, _) => a | None => [] end.
(** [std::to_string] *)
Definition to_string (n : nat) : str := lit (NilZero.string_of_uint (Nat.to_uint n)).

Section Create.
(** Which files can be opened for writing; what the priority queue picks among equal lines (see the model of the file sorter);
    what [std::sort] does with groups of the same start; which texts are numbers in range (see the model of delimited files). *)
Context (can_write : str -> bool) (pick : heap -> option ((str * list str) * heap)) (sort : list group -> list group) (in_range : str -> bool).
(** The number of lines in a chunk (10000), and the contents computed by other parts: of the csv file for a text or tsv file, of the
    raw binary file and of the final one (src/util/dataset_utils.hpp:75-123, 295-446 and 176-277). An exception while a file is
    written is taken to come before. *)
Context (chunk_size : nat) (convert_txt convert_tsv : str -> str) (encode : list group -> str -> outcome str) (scale : str -> outcome str).

Definition step (fs : files) (o : op) : files :=
  match o with
  | Truncate p => if can_write p then put fs p (Some []) else fs
  | Append p c => if can_write p then match fs p with Some content => put fs p (Some (content ++ [c])) | None => fs end else fs
  | Remove p => put fs p None
  end.
Definition run (ops : list op) (fs : files) : files := fold_left step ops fs.

(** src/lang/execution_context.hpp:36-38 *)
Definition get_dataset_path (dataset_name : str) : str := lit "../happyml_repo/datasets/" ++ dataset_name.
(** src/lang/execution_context.hpp:48-56 *)
Definition dataset_exists (fs : files) (dataset_name : str) : bool := present fs (get_dataset_path dataset_name ++ lit "/dataset.bin").

(** src/training_data/training_dataset.hpp:334-363: the records written. *)
Definition prepare (given expected : list group) (content : str) (has_header : bool) : outcome (list (list str)) :=
  do records <- read_records "," (S (List.length content)) (open_path [content] has_header);
  omapM (new_record given expected) records.

(** src/util/text_file_sorter.hpp:62, 75, 102 *)
Definition chunk_path (parent : str) (i : nat) : str := parent ++ lit "/chunk_" ++ to_string i ++ lit ".txt".
(** src/util/text_file_sorter.hpp:28-87 and 94-156: without header, with removal of repeated lines; the operations, or none
    if the file is not there. *)
Definition sort_files (fs : files) (file_name result_file_name : str) : option (list op) :=
  match fs file_name with
  | None => None
  | Some content =>
      let parent := parent_path file_name in
      let chunks := make_chunks chunk_size [] (lines_of content) in
      let numbers := seq 0 (List.length chunks) in
      let writes := flat_map (fun '(i, c) => write_file (chunk_path parent i) (write_lines c)) (combine numbers chunks) in
      let fs := run writes fs in
      let read := map (fun i => match fs (chunk_path parent i) with Some content => lines_of content | None => [] end) numbers in
      let h := open_chunks (fun i => present fs (chunk_path parent i)) 0 read in
      Some (writes ++ write_file result_file_name (write_lines (merge_loop pick (heap_size h) true true [] h)) ++ map (fun i => Remove (chunk_path parent i)) numbers)
  end.

(** The groups of the statement. *)
Definition group_of (g : column_group) : group :=
  {| start_index := start g; source_column_count := count g; expected_use := seq_eqb (use g) (lit "expected"); group_id := id g |}.
(** src/lang/statements/create_dataset_statement.hpp:59-77 *)
Definition acceptable (g : column_group) : bool :=
  existsb (seq_eqb (data_type g)) [lit "label"; lit "number"; lit "text"; lit "image"] &&
  existsb (seq_eqb (use g)) [lit "expected"; lit "given"].

(** What happens after [ops], which are done. *)
Definition after {A} (ops : list op) (r : list op * A) : list op * A := (ops ++ fst r, snd r).

(** src/lang/statements/create_dataset_statement.hpp:157-202: after the csv file is known to be there. *)
Definition build (fs : files) (name base_file_path : str) (has_header : bool) (gs : list group) : list op * result :=
  let current_location := base_file_path ++ lit ".csv" in
  let organized_location := base_file_path ++ lit ".given-expected.csv" in
  let sorted_location := base_file_path ++ lit ".sorted.csv" in
  let raw_location := get_dataset_path name ++ lit "/raw.bin" in
  match prepare (given_groups gs) (expected_groups gs) (match fs current_location with Some content => content | None => [] end) has_header with
  | Throw => ([Truncate organized_location], Thrown)
  | UB => ([], Undefined)
  | Ok records =>
      let ops := write_file organized_location (write_records in_range "," records) in
      after ops (let fs := run ops fs in
      match records with
      | [] => ([], Failed)
      | _ =>
          match sort_files fs organized_location sorted_location with
          | None => ([], Failed)
          | Some ops =>
              after ops (let fs := run ops fs in
              if negb (present fs organized_location) then ([], Failed)
              else after [Remove organized_location] (let fs := run [Remove organized_location] fs in
              match encode (updated_groups gs) (match fs sorted_location with Some content => content | None => [] end) with
              | Throw => ([], Thrown)
              | UB => ([], Undefined)
              | Ok raw =>
                  let ops := write_file raw_location raw in
                  after ops (let fs := run ops fs in
                  if negb (present fs sorted_location) then ([], Failed)
                  else after [Remove sorted_location] (let fs := run [Remove sorted_location] fs in
                  match scale (match fs raw_location with Some content => content | None => [] end) with
                  | Throw => ([], Thrown)
                  | UB => ([], Undefined)
                  | Ok final =>
                      let ops := write_file (get_dataset_path name ++ lit "/dataset.bin") final in
                      after ops (let fs := run ops fs in
                      if negb (present fs raw_location) then ([], Failed) else ([Remove raw_location], Succeeded))
                  end))
              end))
          end
      end)
  end.

(** src/lang/statements/create_dataset_statement.hpp:34-202, with src/util/dataset_utils.hpp:75-95: the operations in order, and how
    the statement ends. Loading the encoder for texts (83-89) changes no file and is left out. *)
Definition execute (fs : files) (name location : str) (has_header : bool) (column_groups : list column_group) : list op * result :=
  if dataset_exists fs name then ([], Succeeded)
  else if negb (seq_eqb (firstn 7 location) (lit "file://")) then ([], Failed)
  else match column_groups with
  | [] => ([], Failed)
  | _ =>
      if negb (forallb acceptable column_groups) then ([], Failed)
      else let '(gs, overlap) := sort_and_check_overlaps sort (map group_of column_groups) in
      if overlap then ([], Failed)
      else match split_last "." (skipn 7 location) with
      | None => ([], Failed)
      | Some (base_file_path, file_extension) =>
          let current_location := base_file_path ++ lit ".csv" in
          let convert (opened : option str) : list op * bool :=
            match opened with
            | Some content => if can_write current_location then (write_file current_location content, true) else ([], false)
            | None => ([Truncate current_location], false)
            end in
          let '(ops, converted) :=
            if seq_eqb file_extension (lit "txt") then convert (option_map convert_txt (fs location))
            else if seq_eqb file_extension (lit "tsv") then
              convert (match fs location with Some content => match lines_of content with [] => None | _ => Some (convert_tsv content) end | None => None end)
            else ([], seq_eqb file_extension (lit "csv")) in
          let has_header := if seq_eqb file_extension (lit "txt") then false else has_header in
          if negb converted then (ops, Failed)
          else after ops (let fs := run ops fs in
            if negb (present fs current_location) then ([], Failed)
            else match given_groups gs with
            | [] => ([], Failed)
            | _ => build fs name base_file_path has_header gs
            end)
      end
  end.
End Create.
