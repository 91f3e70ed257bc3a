(** Vocabulary for C20, C21. *)
From Coq Require Import Ascii String List Permutation.
From Verif Require Import Chars Trie_Model.
Import ListNotations.

(** A trie after inserting the pairs of [history], oldest first; for the i-th insertion the hash
    map places a new child as [add i] says. *)
Definition hash_order (add : nat -> list (ascii * trie) -> ascii * trie -> list (ascii * trie)) : Prop :=
  forall i l c, Permutation (add i l c) (c :: l).
Fixpoint build_from add (i : nat) (history : list (str * str)) (t : trie) : trie :=
  match history with
  | [] => t
  | (w, v) :: h => build_from add (S i) h (insert (add i) w v t)
  end.
Definition build add history := build_from add 0 history empty.

(** The value of the most recent pair with this word. *)
Definition latest (history : list (str * str)) (w : str) (v : str) : Prop :=
  exists before after, history = before ++ (w, v) :: after /\ ~ In w (map fst after).

Definition extends (w p : str) : Prop := exists s, w = p ++ s.
