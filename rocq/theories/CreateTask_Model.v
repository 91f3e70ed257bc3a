(** Model of the statement that creates a task, and of the files that executing a task reads
    (src/lang/statements/create_task_statement.hpp, src/util/task_utils.hpp, src/lang/execution_context.hpp).

    Simplifications, for every definition in this file: those of the model of saving a model; [..] in a path is the folder
    above; the log is written where the lines are put into it, and what is put into it during the training just before the
    model is saved. *)
From Coq Require Import List Arith Bool String Ascii.
From Verif Require Import Outcome Chars SaveFiles_Model.
Import ListNotations.

(** How a statement ends; [Undefined]: its execution has no meaning. *)
Inductive result := Succeeded | Failed | Undefined.

(** The names in the text of a path. *)
Fixpoint components (text : str) : list str :=
  match text with
  | [] => [[]]
  | c :: t => match components t with
              | [] => []
              | x :: l => if ceq c "/" then [] :: x :: l else (c :: x) :: l
              end
  end.
Definition enter (p : path) (name : str) : path :=
  if seq_eqb name [] || seq_eqb name (lit ".") then p
  else if seq_eqb name (lit "..") then removelast p
  else p ++ [name].

(** What is chosen outside of the program: what [filesystem::remove_all] finds in the folder of an incomplete task, in the
    order in which it removes it, and what is chosen while the model is saved. *)
Record choice := { stale_order : list path; saving : chance }.

(** What happens after [ops], which are done. *)
Definition after {A} (ops : list op) (r : list op * A) : list op * A := (ops ++ fst r, snd r).

Section Task.
(** The folder in which the program runs. *)
Context (cwd : path).
(** The search for a network (src/util/task_utils.hpp:416-644, see the model of the search): from the bytes of the dataset and of the test
    dataset, and the goal, the lines put into the log, the network as it is saved, and the bytes of the metadata
    (src/util/file_writer.hpp:130-260). *)
Context (learn : str -> option str -> str -> outcome (str * saved * str)).

(** The place of a relative path. *)
Definition resolve (text : str) : path := fold_left enter (components text) cwd.

(** src/lang/execution_context.hpp:16-17, 36-46 *)
Definition get_dataset_path (dataset_name : str) : str := lit "../happyml_repo/datasets/" ++ dataset_name.
Definition get_base_task_folder_path : str := lit "../happyml_repo/tasks/".
(** A file that can be read. *)
Definition content (fs : files) (p : path) : option str := match fs p with Some (File c) => Some c | _ => None end.
(** src/lang/execution_context.hpp:48-56 *)
Definition dataset_exists (fs : files) (dataset_name : str) : bool :=
  match content fs (resolve (get_dataset_path dataset_name ++ lit "/dataset.bin")) with Some _ => true | None => false end.

(** [filesystem::remove_all]: the folder itself cannot be removed by a path that ends with a dot, then it throws. *)
Definition remove_all (order : list path) (text : str) : list op * bool :=
  if seq_eqb (last (components text) []) (lit ".") then (map Remove (removelast order), false) else (map Remove order, true).

(** src/util/task_utils.hpp:414: the line put into the log *)
Definition creating (task_name goal dataset_name : str) : str :=
  lit "Creating label task " ++ task_name ++ lit " with goal " ++ goal ++ lit " using dataset " ++ dataset_name ++ [ascii_of_nat 10].

(** src/util/task_utils.hpp:390-658: the operations in order, and how the function ends; an exception is caught. *)
Definition create_label_task (ch : choice) (fs : files) (task_name goal dataset_name dataset_file_path task_folder_path test_dataset_file_path : str)
  : list op * result :=
  let log_file_path := resolve (task_folder_path ++ lit "/../logs/log.txt") in
  let ops := create_directories (resolve task_folder_path) ++ create_directories (resolve (task_folder_path ++ lit "/../logs")) ++
    (if exists_ fs log_file_path then [] else [Truncate log_file_path]) in
  after ops (let fs := run ops fs in
  let task_full_path := task_folder_path ++ task_name in
  if task_exists fs (resolve task_full_path) then ([], Succeeded) else
  let '(ops, removed) := if exists_ fs (resolve task_full_path) then remove_all (stale_order ch) task_full_path else ([], true) in
  after ops (let fs := run ops fs in
  if negb removed then ([], Failed) else
  let ops := map (Append log_file_path) (creating task_name goal dataset_name) in
  after ops (let fs := run ops fs in
  match content fs (resolve (dataset_file_path ++ lit "/dataset.bin")) with
  | None => ([], Failed)
  | Some data =>
      let test := content fs (resolve (test_dataset_file_path ++ lit "/dataset.bin")) in
      let has_test := negb (seq_eqb test_dataset_file_path []) in
      if has_test && (match test with None => true | Some _ => false end) then ([], Failed) else
      match learn data (if has_test then test else None) goal with
      | Throw => ([], Failed)
      | UB => ([], Undefined)
      | Ok (lines, neuralNetwork, metadata) =>
          let ops := map (Append log_file_path) lines in
          after ops (let fs := run ops fs in
          let ops := saveAs (saving ch) fs (resolve task_full_path) true neuralNetwork in
          after ops (write_file (resolve (task_full_path ++ lit "/dataset.bin")) metadata, Succeeded))
      end
  end))).

(** src/lang/statements/create_task_statement.hpp:30-52 with src/util/task_utils.hpp:661-669 *)
Definition create_task (ch : choice) (fs : files) (task_type task_name goal dataset_name test_dataset_name : str) : list op * result :=
  if negb (dataset_exists fs dataset_name) then ([], Failed)
  else if negb (seq_eqb (lit "label") task_type) then ([], Failed)
  else create_label_task ch fs task_name goal dataset_name (get_dataset_path dataset_name) get_base_task_folder_path
         (if seq_eqb test_dataset_name [] then [] else get_dataset_path test_dataset_name).

(** Loading a network from its description and the tensors of its layers, and answering with it and the metadata (see the models
    of the description, of the knowledge and of the queries). *)
Context {network inputs : Type} (load : option str -> (str -> option str) -> outcome network) (answer : network -> str -> inputs -> outcome bool).

(** src/util/task_utils.hpp:87-162: what [execute_task_with_inputs] reads; a missing file of metadata is an exception
    (src/util/file_reader.hpp:207-216). *)
Definition execute_task_with_inputs (fs : files) (task_name : str) (user_inputs : inputs) : outcome bool :=
  let task_full_path := get_base_task_folder_path ++ task_name in
  if negb (exists_ fs (resolve task_full_path)) then Ok false else
  do loadedNeuralNetwork <- load (content fs (resolve task_full_path ++ [lit "model.config"]))
                                 (fun label => content fs (resolve task_full_path ++ [lit "default"; label ++ lit ".tensor"]));
  match content fs (resolve (task_full_path ++ lit "/dataset.bin")) with
  | None => Throw
  | Some metadata => answer loadedNeuralNetwork metadata user_inputs
  end.
End Task.
