(** Model of the strategy that decides when training ends.

    Losses are IEEE 754 binary32; epochs and times are unbounded integers (the code has 64-bit ones). *)
From Coq Require Import ZArith NArith Arith Bool.
From Flocq Require Import IEEE754.Bits.
From Verif Require Import Outcome F32_Model.

(** src/ml/exit_strategy.hpp:33-40: the constructor's arguments. *)
Record settings := {
  patience : nat; maxElapsedTime : Z; maxEpochs : nat; zeroPrecisionTolerance : binary32; improvementTolerance : binary32;
  minEpochs : nat; maxDegradationTolerance : binary32 }.
(** src/ml/exit_strategy.hpp:107-117: the two members that change. *)
Record progress := { lowestLoss : binary32; lowestLossEpoch : nat }.

(** [INFINITY] *)
Definition infinity : binary32 := of_bits 0x7F800000.
(** src/ml/exit_strategy.hpp:57-58 *)
Definition start : progress := {| lowestLoss := infinity; lowestLossEpoch := 0 |}.
(** [std::min(a, b)] on floats. *)
Definition fmin (a b : binary32) : binary32 := if flt b a then b else a.

(** src/ml/exit_strategy.hpp:69 and 89 *)
Definition degradation (loss : binary32) (p : progress) : binary32 := fdiv (fsub loss (lowestLoss p)) (lowestLoss p).
(** src/ml/exit_strategy.hpp:61-79 [isDone].  The unsigned subtraction cannot wrap: it follows the check. *)
Definition isDone (s : settings) (p : progress) (currentEpoch : nat) (loss : binary32) (elapsed : Z) : outcome (progress * bool) :=
  do p <- (if fle (fadd loss (improvementTolerance s)) (lowestLoss p)
           then Ok {| lowestLoss := fmin loss (lowestLoss p); lowestLossEpoch := currentEpoch |}
           else if Nat.ltb currentEpoch (lowestLossEpoch p) then Throw
           else Ok p);
  let elapsedEpochsSinceLowestEpoch := currentEpoch - lowestLossEpoch p in
  let done := Nat.leb (minEpochs s) currentEpoch &&
              (Nat.leb (maxEpochs s) currentEpoch ||
               fge (degradation loss p) (maxDegradationTolerance s) ||
               Z.leb (maxElapsedTime s) elapsed ||
               Nat.leb (patience s) elapsedEpochsSinceLowestEpoch ||
               fle loss (zeroPrecisionTolerance s)) in
  Ok (p, done).

(** src/ml/exit_strategy.hpp:81-120 [whyDone]: which text it returns. *)
Inductive reason := Not_yet | Max_epochs | Degraded | Time_over | Out_of_patience | Loss_zero | Unknown.
Definition whyDone (s : settings) (p : progress) (currentEpoch : nat) (loss : binary32) (elapsed : Z) : reason :=
  if Nat.ltb currentEpoch (minEpochs s) then Not_yet
  else if Nat.leb (maxEpochs s) currentEpoch then Max_epochs
  else if fge (degradation loss p) (maxDegradationTolerance s) then Degraded
  else if Z.leb (maxElapsedTime s) elapsed then Time_over
  else if Nat.leb (patience s) (currentEpoch - lowestLossEpoch p) then Out_of_patience
  else if fle loss (zeroPrecisionTolerance s) then Loss_zero
  else Unknown.

(** The calls made by src/ml/neural_network.hpp:446-559: epochs 1, 2, ... with a new strategy; the state
    after [k] of them. *)
Fixpoint after (s : settings) (p : progress) (loss : nat -> binary32) (time : nat -> Z) (k : nat) : outcome progress :=
  match k with
  | O => Ok p
  | S k' => do q <- after s p loss time k'; do r <- isDone s q k (loss k) (time k); Ok (fst r)
  end.
(** The answer of the [k]-th call, [k] at least 1. *)
Definition done_at (s : settings) (p : progress) (loss : nat -> binary32) (time : nat -> Z) (k : nat) : outcome bool :=
  do q <- after s p loss time (k - 1); do r <- isDone s q k (loss k) (time k); Ok (snd r).
