(** What "replace all occurrences" means. *)
From Coq Require Import List.
Import ListNotations.

(** [pat] occurs in [s] at offset [i]. *)
Definition occurs_at {A} (pat s : list A) (i : nat) : Prop :=
  exists a b, s = a ++ pat ++ b /\ length a = i.

(** The leftmost, non-overlapping occurrences are replaced, nothing else changes. *)
Inductive replaced {A} (pat rep : list A) : list A -> list A -> Prop :=
| replaced_none s : (forall i, ~ occurs_at pat s i) -> replaced pat rep s s
| replaced_first a b b' :
    (forall i, i < length a -> ~ occurs_at pat (a ++ pat ++ b) i) ->
    replaced pat rep b b' ->
    replaced pat rep (a ++ pat ++ b) (a ++ rep ++ b').
