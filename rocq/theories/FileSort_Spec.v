(** Vocabulary for C12. *)
From Coq Require Import Ascii String List Bool Arith NArith Permutation.
From Verif Require Import Chars.
Import ListNotations.

(** Byte-wise dictionary order. *)
Inductive byte_lt : str -> str -> Prop :=
| byte_lt_end c t : byte_lt [] (c :: t)
| byte_lt_here x y a b : (N_of_ascii x < N_of_ascii y)%N -> byte_lt (x :: a) (y :: b)
| byte_lt_later x a b : byte_lt a b -> byte_lt (x :: a) (x :: b).
Definition byte_le (a b : str) : Prop := a = b \/ byte_lt a b.

(** Every earlier line is related to every later one. *)
Fixpoint ordered (R : str -> str -> Prop) (ls : list str) : Prop :=
  match ls with
  | [] => True
  | l :: t => (forall x, In x t -> R l x) /\ ordered R t
  end.

(** A priority queue ordered by the first component of its entries. *)
Definition min_queue (pick : list (str * list str) -> option ((str * list str) * list (str * list str))) : Prop :=
  pick [] = None /\
  forall h, h <> [] -> exists e h', pick h = Some (e, h') /\ Permutation h (e :: h') /\
    forall y, In y h' -> byte_le (fst e) (fst y).
