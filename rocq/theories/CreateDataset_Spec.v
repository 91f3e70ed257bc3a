(** Vocabulary for C90 to C92. *)
From Coq Require Import List Arith NArith Bool String Ascii.
From Verif Require Import Chars Columns_Model.
Import ListNotations.

(** The file at [base] lies in [folder]; empty for a bare name. *)
Definition folder_of (base folder : str) : Prop :=
  exists file, ~ In "/"%char file /\ (base = folder ++ "/"%char :: file \/ (folder = [] /\ base = file)).

(** The names that a statement which creates the dataset [name] from the file [base ++ ".csv"] uses for its own files. *)
Definition own_file (name base p : str) : Prop :=
  p = base ++ lit ".given-expected.csv" \/ p = base ++ lit ".sorted.csv" \/
  p = lit "../happyml_repo/datasets/" ++ name ++ lit "/raw.bin" \/ p = lit "../happyml_repo/datasets/" ++ name ++ lit "/dataset.bin" \/
  exists folder digits, folder_of base folder /\ Forall (fun c => 48 <= N_of_ascii c <= 57)%N digits /\ p = folder ++ lit "/chunk_" ++ digits ++ lit ".txt".

Definition dataset_file (name : str) : str := lit "../happyml_repo/datasets/" ++ name ++ lit "/dataset.bin".

(** The columns of the given groups of a record, then those of the expected ones. *)
Definition chosen (gs : list group) (record : list str) : list str :=
  List.concat (map (fun g => firstn (N.to_nat (source_column_count g)) (skipn (N.to_nat (start_index g)) record))
    (filter (fun g => negb (expected_use g)) gs ++ filter expected_use gs)).
