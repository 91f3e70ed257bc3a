(** Model of the file operations that save a model.

    Simplifications, for every definition in this file: a file system is what is found at each path, a path
    the names from the root on; every operation is atomic, except that a file is written byte by byte and a
    folder removed entry by entry; what has been written stays, also if the process is killed (losing power
    is not modelled), and no operation fails; links are left out, so a canonical path is the path itself.
    The text of the description and the bytes of the tensors are given (see the models of the description
    and of the tensor file). *)
From Coq Require Import List Arith Bool String Ascii.
From Verif Require Import Outcome Chars.
Import ListNotations.

Notation path := (list str).
Inductive entry := Folder | File (content : str).
Notation files := (path -> option entry).

Definition path_eq_dec : forall p q : path, {p = q} + {p <> q} := list_eq_dec (list_eq_dec ascii_dec).
Definition put (fs : files) (p : path) (e : option entry) : files := fun q => if path_eq_dec p q then e else fs q.
Definition is_directory (fs : files) (p : path) : bool := match fs p with Some Folder => true | _ => false end.

(** A file can be created in a folder that is there. *)
Definition in_folder (fs : files) (p : path) : bool := match removelast p with [] => true | folder => is_directory fs folder end.
(** The atomic operations; opening a file in a folder that is not there does nothing, and neither does writing to it then. *)
Inductive op := Remove (p : path) | Mkdir (p : path) | Truncate (p : path) | Append (p : path) (c : ascii).
Definition step (fs : files) (o : op) : files :=
  match o with
  | Remove p => put fs p None
  | Mkdir p => match fs p with None => put fs p (Some Folder) | Some _ => fs end
  | Truncate p => if in_folder fs p then put fs p (Some (File [])) else fs
  | Append p c => match fs p with Some (File content) => put fs p (Some (File (content ++ [c]))) | _ => fs end
  end.
Definition run (ops : list op) (fs : files) : files := fold_left step ops fs.

(** [filesystem::create_directories]: every folder on the way that is not there. *)
Definition create_directories (p : path) : list op := map (fun n => Mkdir (firstn n p)) (seq 1 (List.length p)).
(** Opening a file for writing, writing [content] and closing it. *)
Definition write_file (p : path) (content : str) : list op := Truncate p :: map (Append p) content.

(** [name_stamp]: the path with ["_" + ms] appended to its last name. *)
Definition stamped (p : path) (stamp : str) : path := removelast p ++ [last p [] ++ lit "_" ++ stamp].

(** What is chosen outside of the program: what [filesystem::remove_all] finds, in the order in which it removes
    it, and the milliseconds; each for the folder of the model and for that of the knowledge. *)
Record chance := { model_order : list path; knowledge_order : list path; model_stamp : str; knowledge_stamp : str }.

(** A model as it is saved: the text of its description, and what is saved for each layer, in the order of the
    calls. *)
Record saved := { config : str; layers : list (str * str) }.

(** src/util/data_util.hpp:36-54 *)
Definition initialize_knowledge_path_directory (ch : chance) (fs : files) (modelFolderPath : path) (knowledgeLabel : str) (overwrite : bool) : list op * path :=
  let fullKnowledgePath := modelFolderPath ++ [knowledgeLabel] in
  if is_directory fs fullKnowledgePath then
    if overwrite then (map Remove (knowledge_order ch) ++ create_directories fullKnowledgePath, fullKnowledgePath)
    else let fullKnowledgePath := stamped fullKnowledgePath (knowledge_stamp ch) in (create_directories fullKnowledgePath, fullKnowledgePath)
  else (create_directories fullKnowledgePath, fullKnowledgePath).
(** src/ml/neural_network.hpp:257-263, with src/ml/layers/fully_connected_layer.hpp:39-42 and
    src/types/base_tensors.hpp:156-169 *)
Definition saveKnowledge (ch : chance) (fs : files) (modelFolderPath : path) (knowledgeLabel : str) (overwrite : bool) (m : saved) : list op :=
  let '(ops, fullKnowledgePath) := initialize_knowledge_path_directory ch fs modelFolderPath knowledgeLabel overwrite in
  ops ++ flat_map (fun '(label, bytes) => write_file (fullKnowledgePath ++ [label ++ lit ".tensor"]) bytes) (layers m).
(** src/ml/neural_network.hpp:213-244 *)
Definition saveAs (ch : chance) (fs : files) (modelFolderPath : path) (overwrite : bool) (m : saved) : list op :=
  let '(ops, modelPath) :=
    if is_directory fs modelFolderPath then
      if overwrite then (map Remove (model_order ch), modelFolderPath)
      else ([], stamped modelFolderPath (model_stamp ch))
    else ([], modelFolderPath) in
  let ops := ops ++ create_directories modelPath ++ write_file (modelPath ++ [lit "model.config"]) (config m) in
  ops ++ saveKnowledge ch (run ops fs) modelFolderPath (lit "default") overwrite m.

(** src/util/task_utils.hpp:405-411: whether a task is taken to be there already. *)
Definition exists_ (fs : files) (p : path) : bool := match fs p with Some _ => true | None => false end.
Definition task_exists (fs : files) (task_full_path : path) : bool :=
  exists_ fs task_full_path && exists_ fs (task_full_path ++ [lit "model.config"]).
