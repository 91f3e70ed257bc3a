(** What the theorems about the optimizers in [float] say. *)
From Coq Require Import List ZArith Reals.
From Flocq Require Import Core IEEE754.BinarySingleNaN IEEE754.Binary IEEE754.Bits.
From Verif Require Import F32_Model Reduce_Model FloatNet_Model FloatNet_Spec FloatOpt_Model.
From Verif Require Reduce_Spec.
Local Open Scope R_scope.

(** What is asked of [powf(x, 2)]: where the square is well inside the range of [float] it is not more than about one unit in
    the last place from it, it is infinite where the square is too large, and it is never NaN or negative for a number. *)
Definition accurate_square (powf : F -> F -> F) : Prop :=
  (forall x, is_number x -> Rabs (number x) <= 2 ^ 63 -> is_number (powf x (of_Z 2)) /\ Rabs (number (powf x (of_Z 2)) - number x * number x) <= 2 * unit_error * (number x * number x) + 2 * tiny) /\
  (forall x, is_number x -> 2 ^ 64 <= Rabs (number x) -> powf x (of_Z 2) = plus_infinity) /\
  (forall x, is_number x -> ~ is_NaN (powf x (of_Z 2)) /\ 0 <= Reduce_Spec.order (powf x (of_Z 2))).
(** A number of at most this size. *)
Definition of_size (b : R) (x : F) : Prop := is_number x /\ Rabs (number x) <= b.
