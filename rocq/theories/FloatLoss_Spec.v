(** What the theorems about the losses in [float] say. *)
From Coq Require Import List Reals.
From Flocq Require Import Core IEEE754.BinarySingleNaN IEEE754.Binary IEEE754.Bits.
From Verif Require Import F32_Model Reduce_Model FloatNet_Model FloatNet_Spec FloatOpt_Model.
Local Open Scope R_scope.

(** What is asked of [logf] between 1e-8 and 1: about one unit in the last place. *)
Definition accurate_log (f : F -> F) : Prop := forall x, is_number x -> number float_epsilon <= number x <= 1 -> is_number (f x) /\ Rabs (number (f x) - ln (number x)) <= 2 * unit_error * Rabs (ln (number x)).
(** A probability, but at least the [float] 1e-8. *)
Definition clipped (x : R) : R := Rmax x (number float_epsilon).
(** A [float] from 0 to 1. *)
Definition portion (x : F) : Prop := is_number x /\ 0 <= number x <= 1.
Definition sum_of (l : list R) : R := fold_right Rplus 0 l.
(** Something about all elements of two tensors. *)
Definition everywhere (r c k : nat) (P : nat -> nat -> nat -> Prop) : Prop := forall i j l, (i < r)%nat -> (j < c)%nat -> (l < k)%nat -> P i j l.
