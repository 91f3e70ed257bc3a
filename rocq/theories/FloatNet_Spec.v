(** Vocabulary for predictions in [float]: the number a [float] stands for, and how far results may be from the exact ones. *)
From Coq Require Import List Arith Reals.
From Flocq Require Import Core IEEE754.BinarySingleNaN IEEE754.Binary IEEE754.Bits.
From Verif Require Reduce_Spec.
From Verif Require Import Outcome Tensor_Model Tensor_Spec F32_Model Reduce_Model Activation_Model FloatNet_Model.
Import ListNotations.
Local Open Scope R_scope.

(** The number a [float] stands for, if it is not infinite or NaN. *)
Definition number (x : F) : R := B2R 24 128 x.
Definition is_number (x : F) : Prop := is_finite 24 128 x = true.
Definition is_NaN (x : F) : Prop := is_nan 24 128 x = true.
(** Half the distance between 1 and the next [float], and half the smallest positive [float]. *)
Definition unit_error : R := / 2 ^ 24.
Definition tiny : R := / 2 ^ 150.
(** A tensor of numbers, with elements [f]. *)
Definition numbers (t : FT) (r c k : nat) (f : nat -> nat -> nat -> R) : Prop :=
  rows t = r /\ cols t = c /\ chans t = k /\ forall i j l, (i < r)%nat -> (j < c)%nat -> (l < k)%nat -> exists x, get t i j l = Ok x /\ is_number x /\ number x = f i j l.
(** The sum of the sizes of [n] products. *)
Definition sizes (n : nat) (f g : nat -> R) : R := Sum rops n (fun i => Rabs (f i * g i)).
(** How far a sum of [n] products of which the sizes have the sum [s] may be from the exact one, and how large it may get. *)
Definition sum_error (n : nat) (s : R) : R := ((1 + unit_error) ^ (n + 1) - 1) * s + INR n * (1 + unit_error) ^ n * tiny.
(** The same with a bias of size [b] added. *)
Definition dense_error (n : nat) (s b : R) : R := (1 + unit_error) * sum_error n s + unit_error * (s + b).
Definition in_bounds (x : R) : Prop := x < 2 ^ 128.

(** What the theorems ask of the exponential function of the C library: no NaN but for a NaN, no negative result, at most 1 up to 0 and 1 for 0; and,
    where it is said, that it is monotone.  [order] is the place among the numbers and infinities (see C45). *)
Definition exponential_like (e : F -> F) : Prop :=
  (forall x, is_NaN x -> is_NaN (e x)) /\
  (forall x, ~ is_NaN x -> ~ is_NaN (e x) /\ 0 <= Reduce_Spec.order (e x)) /\
  (forall x, ~ is_NaN x -> Reduce_Spec.order x <= 0 -> Reduce_Spec.order (e x) <= 1) /\
  (forall x, is_number x -> number x = 0 -> is_number (e x) /\ number (e x) = 1).
Definition monotone (e : F -> F) : Prop := forall x y, ~ is_NaN x -> ~ is_NaN y -> Reduce_Spec.order x <= Reduce_Spec.order y -> Reduce_Spec.order (e x) <= Reduce_Spec.order (e y).
(** Scores softmax can work with: none is NaN or plus infinity, and one is a number. *)
Definition plus_infinity : F := B754_infinity 24 128 false.
Definition minus_infinity : F := B754_infinity 24 128 true.
Definition workable (l : list F) : Prop := (forall x, In x l -> ~ is_NaN x /\ x <> plus_infinity) /\ exists x, In x l /\ is_number x.
(** Half the distance between 1 and the next [double]. *)
Definition double_error : R := / 2 ^ 53.
