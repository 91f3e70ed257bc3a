(** Model of src/util/pretty_print_row.hpp:17-74: text tables. *)
From Coq Require Import List Bool Arith Ascii String.
From Verif Require Import Outcome Chars.
Import ListNotations.

(** [stream << std::setw(w) << s]: padded on the left with spaces, never cut. *)
Definition setw (w : nat) (s : str) : str := repeat (ascii_of_nat 32) (w - List.length s) ++ s.

(** Values with "|" between them: the loops at 19-26 and 56-69 ([delim] is empty before the first). *)
Fixpoint bars (fields : list str) : str :=
  match fields with
  | [] => []
  | [f] => f
  | f :: r => f ++ lit "|" ++ bars r
  end.

(** src/util/pretty_print_row.hpp:17-28 [pretty_print_header]; one line without its end.
    [widths\[i\]] is unchecked. *)
Definition print_header (column_names : list str) (widths : list nat) : outcome str :=
  omap bars (omapM (fun p => do w <- vec_at widths (fst p); Ok (setw w (snd p))) (combine (seq 0 (List.length column_names)) column_names)).

(** src/util/pretty_print_row.hpp:30-44 [calculate_pretty_print_column_widths]. *)
Definition column_widths (column_names : list str) (row_values : list (list str)) : outcome (list nat) :=
  if List.length column_names =? List.length row_values then
    Ok (map (fun p => fold_left (fun m v => Nat.max m (List.length v)) (snd p) (List.length (fst p))) (combine column_names row_values))
  else Throw.

(** src/util/pretty_print_row.hpp:46-74 [pretty_print_row]: the lines. *)
Definition max_height (row_values : list (list str)) : nat := fold_left (fun m v => Nat.max m (List.length v)) row_values 0.
Definition print_row (row_values : list (list str)) (widths : list nat) : outcome (list str) :=
  omapM (fun height => omap bars (omapM (fun p => do w <- vec_at widths (fst p); Ok (setw w (nth height (snd p) [])))
    (combine (seq 0 (List.length row_values)) row_values))) (seq 0 (max_height row_values)).
