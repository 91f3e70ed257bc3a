(** Scaling of numbers in [float]: what the metadata of a column can be. *)
From Coq Require Import List Reals.
From Verif Require Import Scaling_Model Reduce_Model FloatNet_Spec.
Local Open Scope R_scope.

(** The metadata of a column of numbers up to [K] that are not all the same; a column is standardised only if its deviation, and so the
    difference of its numbers, is above 1. *)
Definition usable (m : scaling float32) (K : R) : Prop :=
  is_normalized float32 m = true /\ 1 <= K /\
  (forall f, f = min_value float32 m \/ f = max_value float32 m \/ f = mean float32 m \/ f = standard_deviation float32 m -> is_number f) /\
  Rabs (number (min_value float32 m)) <= K /\ Rabs (number (max_value float32 m)) <= K /\ number (min_value float32 m) < number (max_value float32 m) /\
  (is_standardized float32 m = true -> Rabs (number (mean float32 m)) <= K /\ 1 <= number (standard_deviation float32 m) /\ 1 <= number (max_value float32 m) - number (min_value float32 m)).
