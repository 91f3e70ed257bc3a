(** What a user is told about the fields they typed for a task. *)
From Coq Require Import Ascii String List Bool.
From Verif Require Import Outcome Chars Encode_Model InputHelp_Model.
Import ListNotations.

(** Texts with a separator between them. *)
Fixpoint joined (separator : str) (l : list str) : str :=
  match l with
  | [] => []
  | [x] => x
  | x :: r => x ++ separator ++ joined separator r
  end.

(** A sentence that lists names; none if there is nothing to list. *)
Definition sentence (start : str) (names : list str) (stop : str) : str :=
  match names with [] => [] | _ => start ++ joined (lit ",") names ++ stop end.

(** The same name but for upper and lower case. *)
Definition same_name (a b : str) : bool := seq_eqb (lower a) (lower b).
(** A field for a column: its name in lower case. *)
Definition field_for (column_name : str) (field : str * list variant) : bool := seq_eqb (lower column_name) (fst field).

(** The columns without a field, and the names of fields without a column. *)
Definition missing (inputs : fields) (columns : list str) : list str :=
  filter (fun c => negb (existsb (field_for c) inputs)) columns.
Definition unknown (inputs : fields) (columns : list str) : list str :=
  filter (fun k => negb (existsb (same_name k) columns)) (map fst inputs).

(** What is printed if no answer can be given, and the message of the statement. *)
Definition advice (inputs : fields) (columns : list str) : str :=
  sentence (lit "You did not provide the fields: ") (missing inputs columns) (lit ". ") ++
  sentence (lit "You provided the invalid fields: ") (unknown inputs columns) (lit ".").
Definition failure (task_name : str) (inputs : fields) : str :=
  lit "Failed to execute task " ++ task_name ++ lit " with inputs:" ++ [NL] ++
  concat (map (fun f => lit "  " ++ fst f ++ lit ": " ++ joined (lit ", ") (map to_string (snd f)) ++ [NL]) inputs).

(** The field of a column encodes as a tensor. *)
Definition encodes (inputs : fields) (c : column) (t : grid) : Prop :=
  exists v, In (lower (c_name c), v) inputs /\ variant_encode c v = Ok t.
