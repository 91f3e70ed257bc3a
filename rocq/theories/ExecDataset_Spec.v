(** Vocabulary for C98 and C99. *)
From Coq Require Import Reals List.
From Verif Require Import Chars Outcome Scaling_Model Encode_Model ExecDataset_Model.
Import ListNotations.
Open Scope R_scope.

(** The tensors stand for these values, column by column. *)
Inductive stores : list meta -> list value -> list (list R) -> Prop :=
| stores_nil : stores [] [] []
| stores_cons m v t ms vs ts : encode m v = Some t -> stores ms vs ts -> stores (m :: ms) (v :: vs) (t :: ts).

(** The dataset holds these records: given values and expected values. *)
Definition holds (d : dataset) (records : list (list value * list value)) : Prop :=
  Forall2 (fun r row => stores (given_metadata d) (fst r) (fst row) /\ stores (expected_metadata d) (snd r) (snd row)) records (rows d).

(** The value itself, as a cell. *)
Definition written (m : meta) (v : value) : cell :=
  match v with
  | Word s => ShowLabel s
  | Numbers xs => match m_purpose m with Image => ShowImage xs | _ => ShowValues xs end
  end.
Definition all_written (ms : list meta) (vs : list value) : list cell := map (fun p => written (fst p) (snd p)) (combine ms vs).

(** Scaling that keeps values apart and in order; true of every column that has two different values. *)
Definition proper (s : scaling exact) : Prop :=
  (is_standardized exact s = true -> 0 < (standard_deviation exact s : R)) /\
  (is_normalized exact s = true -> (min_value exact s : R) < max_value exact s).
(** Only numbers are scaled, and properly. *)
Definition proper_column (m : meta) : Prop :=
  proper (m_scaling m) /\ (m_purpose m <> Number -> is_standardized exact (m_scaling m) = false /\ is_normalized exact (m_scaling m) = false).

(** Two columns are scaled alike. *)
Definition alike (a b : meta) : Prop := forall x : R, scale exact (m_scaling a) x = scale exact (m_scaling b) x.

(** The values before any scaling: numbers as they are, a label as a one and zeros. *)
Definition plain (m : meta) (v : value) : list R :=
  match v with
  | Numbers xs => xs
  | Word s => map (fun l => if seq_eqb l s then 1 else 0) (m_labels m)
  end.
(** What is shown of a value when the column is scaled as [first] but read as [m]. *)
Definition misread (first m : meta) (v : value) : cell :=
  match v with
  | Word s => ShowLabel s
  | Numbers xs =>
    match m_purpose m with
    | Image => ShowImage (map (scale exact (m_scaling first)) xs)
    | _ => ShowValues (map (fun x => unscale exact (m_scaling m) (scale exact (m_scaling first) x)) xs)
    end
  end.

(** The tensors of values that were typed for these columns. *)
Definition typed (ms : list meta) (vs : list value) : list (list R) :=
  map (fun p => match encode (fst p) (snd p) with Some t => t | None => [] end) (combine ms vs).

(** Columns for the examples: numbers that are stored as they are, numbers between 0 and [top] that
    are stored as a fraction of it, and labels. *)
Definition as_is : scaling exact := @Build_scaling exact false 0 0 false 0 0.
Definition up_to (top : R) : scaling exact := @Build_scaling exact false 0 0 true 0 top.
Definition plain_number : meta := {| m_purpose := Number; m_scaling := as_is; m_labels := [] |}.
Definition fraction (top : R) : meta := {| m_purpose := Number; m_scaling := up_to top; m_labels := [] |}.
Definition label_of (ls : list str) : meta := {| m_purpose := Label; m_scaling := as_is; m_labels := ls |}.
