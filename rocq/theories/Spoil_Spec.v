(** Tensors that can be read, and tensors without a number. *)
From Coq Require Import List Arith.
From Verif Require Import Outcome Tensor_Model Reduce_Model FloatNet_Model FloatNet_Spec.
(** A tensor of [r] rows, [c] columns and one channel whose elements are there: numbers, infinities or NaN. *)
Definition readable (t : FT) (r c : nat) : Prop :=
  rows t = r /\ cols t = c /\ chans t = 1 /\ forall i j, i < r -> j < c -> exists v, get t i j 0 = Ok v.
(** None of its elements is a number. *)
Definition spoiled (t : FT) (r c : nat) : Prop := readable t r c /\ forall i j v, i < r -> j < c -> get t i j 0 = Ok v -> ~ is_number v.
(** The input of a record, one row of [n] elements, and its truth, one row of [m]. *)
Definition fits (n m : nat) (record : FT * FT) : Prop := readable (fst record) 1 n /\ readable (snd record) 1 m.
