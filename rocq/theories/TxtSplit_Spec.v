From Coq Require Import List Bool Arith ZArith Ascii String.
From Verif Require Import Chars.
Import ListNotations.

(** [words s ws]: [ws] are the maximal runs of non-space characters of [s], in order. *)
Inductive words : str -> list str -> Prop :=
| words_nil : words [] []
| words_space s ws : words s ws -> words (" "%char :: s) ws
| words_last w : w <> [] -> ~ In " "%char w -> words w [w]
| words_word w s ws : w <> [] -> ~ In " "%char w -> words s ws -> words (w ++ " "%char :: s) (w :: ws).

(** [a] can be made from [b] by leaving elements out. *)
Inductive subsequence {A} : list A -> list A -> Prop :=
| sub_nil b : subsequence [] b
| sub_skip x a b : subsequence a b -> subsequence a (x :: b)
| sub_keep x a b : subsequence a b -> subsequence (x :: a) (x :: b).

(** A word with a full stop as last or last but one of at least two characters. *)
Definition ends_sentence (w : str) : Prop :=
  exists p c, (w = p ++ [c; "."%char] \/ w = p ++ ["."%char; c])%list.
