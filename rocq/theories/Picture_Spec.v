(** What the theorems about pictures shown as text speak of. *)
From Coq Require Import List Arith NArith ZArith.
Import ListNotations.

(** How bright a character is: blank, three shades, full block. *)
Definition brightness (character : N) : option nat :=
  match character with 32%N => Some 0 | 176%N => Some 1 | 177%N => Some 2 | 178%N => Some 3 | 219%N => Some 4 | _ => None end.
(** The character in a line and a column has this brightness. *)
Definition shows (lines : list (list N)) (line column : nat) (b : nat) : Prop :=
  exists text character, nth_error lines line = Some text /\ nth_error text column = Some character /\ brightness character = Some b.
