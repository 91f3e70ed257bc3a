(** Vocabulary for C113: how far normalization in [float] may be from the exact one. *)
From Coq Require Import Reals Arith.
From Flocq Require Import Core.
From Verif Require Import FloatNet_Spec FloatRun_Spec.
Local Open Scope R_scope.

(** For a tensor of [float]s that are given: nothing is lost before. *)
Definition normalization_rounding (n : nat) : R := sqrt (8 * INR n) * (12 * unit_error + 1680 * double_error * (INR n * INR n)).
