(** Vocabulary for C27, C28. *)
From Coq Require Import List Arith Permutation.
Import ListNotations.

(** What is left in a shuffler of this size after any number of shuffles, whatever they do. *)
Inductive reachable_order (size : nat) : list nat -> Prop :=
| order_new : reachable_order size (seq 0 size)
| order_shuffled : forall l l', reachable_order size l -> Permutation l l' -> reachable_order size l'.
