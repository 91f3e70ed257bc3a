(** Vocabulary for the reductions (C45). *)
From Coq Require Import List Arith Reals Sorted.
From Flocq Require Import Core IEEE754.BinarySingleNaN IEEE754.Binary IEEE754.Bits.
Import ListNotations.

(** The elements of an [n] by [m] by [K] tensor with element [f r c k] at row r, column c, channel k. *)
Definition elements {A} (n m K : nat) (f : nat -> nat -> nat -> A) : list A :=
  concat (map (fun k => concat (map (fun r => map (fun c => f r c k) (seq 0 m)) (seq 0 n))) (seq 0 K)).

Definition number (x : binary32) : bool := negb (is_nan 24 128 x).
(** Order of the floats that are numbers: the infinities are at the ends. *)
Definition order (x : binary32) : R :=
  match x with
  | B754_infinity _ _ true => - bpow radix2 128
  | B754_infinity _ _ false => bpow radix2 128
  | _ => B2R 24 128 x
  end.

(** [v] is a largest / smallest element of [l]. *)
Definition largest (l : list binary32) (v : binary32) : Prop := In v l /\ forall x, In x l -> (order x <= order v)%R.
Definition smallest (l : list binary32) (v : binary32) : Prop := In v l /\ forall x, In x l -> (order v <= order x)%R.

(** Product of a list of reals. *)
Definition times (l : list R) : R := fold_right Rmult 1%R l.
