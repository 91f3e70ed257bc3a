(** Vocabulary for C102. *)
From Coq Require Import List Arith NArith Reals.
From Verif Require Import Tensor_Model Tensor_Spec Reduce_Spec.
From Verif Require Scaling_Spec ModelFile_Model.
Import ListNotations.
Local Open Scope R_scope.

(** One row of [e] values that are all positive and add up to 1. *)
Definition distribution (e : nat) (y : tensor R) : Prop :=
  exists f, is_tensor y 1 e 1 f /\ (forall j, (j < e)%nat -> 0 < f 0%nat j 0%nat) /\ Scaling_Spec.sum (map (fun j => f 0%nat j 0%nat) (seq 0 e)) = 1.
(** One row of [e] values strictly between 0 and 1. *)
Definition fractions (e : nat) (y : tensor R) : Prop := exists f, is_tensor y 1 e 1 f /\ forall j, (j < e)%nat -> 0 < f 0%nat j 0%nat < 1.
Definition width (s : ModelFile_Model.shape) : nat := N.to_nat (snd (fst s)).
(** [l] are the values of a tensor of one row. *)
Definition row_of (y : tensor R) (l : list R) : Prop := rows y = 1%nat /\ cols y = length l /\ chans y = 1%nat /\ forall j x, nth_error l j = Some x -> get y 0 j 0 = Outcome.Ok x.
