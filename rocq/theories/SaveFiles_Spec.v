(** Vocabulary for saving a model. *)
From Coq Require Import List Arith Bool String Ascii.
From Verif Require Import Outcome Chars SaveFiles_Model.
Import ListNotations.

Definition inside (folder p : path) : Prop := exists rest, p = folder ++ rest.
(** An order in which [filesystem::remove_all] may remove a folder: everything in it, each entry once its own
    entries are gone. *)
Definition removal (fs : files) (folder : path) (order : list path) : Prop :=
  (forall p, In p order <-> fs p <> None /\ inside folder p) /\
  forall a p b q, order = a ++ p :: b -> In q b -> ~ (inside p q /\ p <> q).
(** The folder holds the model: its description and the tensors of its layers, as they are read back. *)
Definition holds (fs : files) (folder : path) (m : saved) : Prop :=
  fs (folder ++ [lit "model.config"]) = Some (File (config m)) /\
  forall label bytes, In (label, bytes) (layers m) -> fs (folder ++ [lit "default"; label ++ lit ".tensor"]) = Some (File bytes).
(** A layer that is saved twice is saved with the same values. *)
Definition consistent (m : saved) : Prop := forall label b1 b2, In (label, b1) (layers m) -> In (label, b2) (layers m) -> b1 = b2.
(** The files when the process is killed after [k] operations. *)
Definition killed (k : nat) (ops : list op) (fs : files) : files := run (firstn k ops) fs.
