(** Vocabulary for creating a task. *)
From Coq Require Import List Arith Bool String Ascii.
From Verif Require Import Outcome Chars SaveFiles_Model SaveFiles_Spec CreateTask_Model.
Import ListNotations.

(** Where things are, for a program that runs in the folder [cwd]. *)
Definition repo_folder (cwd : path) : path := removelast cwd ++ [lit "happyml_repo"].
Definition tasks_folder (cwd : path) : path := repo_folder cwd ++ [lit "tasks"].
Definition task_folder (cwd : path) (name : str) : path := tasks_folder cwd ++ [name].
Definition logs_folder (cwd : path) : path := repo_folder cwd ++ [lit "logs"].
Definition log_file (cwd : path) : path := logs_folder cwd ++ [lit "log.txt"].
(** A name that is the name of one entry of a folder. *)
Definition plain (name : str) : Prop := name <> [] /\ ~ In "/"%char name /\ name <> lit "." /\ name <> lit "..".
(** What is in a folder that is not there is not there. *)
Definition rooted (fs : files) (folder : path) : Prop := forall p, inside folder p -> fs p <> None -> fs folder <> None.
(** The networks found save the same values for a layer that is saved twice. *)
Definition consistent_networks (learn : str -> option str -> str -> outcome (str * saved * str)) : Prop :=
  forall data test goal lines m metadata, learn data test goal = Ok (lines, m, metadata) -> consistent m.
(** The task is complete: its network, and the metadata of its columns. *)
Definition task_holds (fs : files) (folder : path) (m : saved) (metadata : str) : Prop :=
  holds fs folder m /\ fs (folder ++ [lit "dataset.bin"]) = Some (File metadata).
