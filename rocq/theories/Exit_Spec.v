(** When training should end. *)
From Coq Require Import ZArith Arith Bool.
From Flocq Require Import IEEE754.Bits.
From Verif Require Import Outcome F32_Model Exit_Model.

(** [best tol loss k b]: after [k] epochs the last epoch that improved on the best before it by at
    least [tol] is [b] (0: none). *)
Inductive best (tol : binary32) (loss : nat -> binary32) : nat -> nat -> Prop :=
| best_start : best tol loss 0 0
| best_first k : best tol loss k 0 -> fle (fadd (loss (S k)) tol) infinity = true -> best tol loss (S k) (S k)
| best_none k : best tol loss k 0 -> fle (fadd (loss (S k)) tol) infinity = false -> best tol loss (S k) 0
| best_better k b : 0 < b -> best tol loss k b -> fle (fadd (loss (S k)) tol) (loss b) = true -> best tol loss (S k) (S k)
| best_same k b : 0 < b -> best tol loss k b -> fle (fadd (loss (S k)) tol) (loss b) = false -> best tol loss (S k) b.

(** The loss [l] has degraded from the best one, that of epoch [b], by the fraction [f]. *)
Definition degraded (f : binary32) (loss : nat -> binary32) (b k : nat) : Prop :=
  0 < b /\ fge (fdiv (fsub (loss k) (loss b)) (loss b)) f = true.

(** What each reason says about epoch [k] with best epoch [b]. *)
Definition reason_holds (s : settings) (loss : nat -> binary32) (time : nat -> Z) (b k : nat) (r : reason) : Prop :=
  match r with
  | Not_yet => False
  | Max_epochs => maxEpochs s <= k
  | Degraded => degraded (maxDegradationTolerance s) loss b k
  | Time_over => (maxElapsedTime s <= time k)%Z
  | Out_of_patience => b + patience s <= k
  | Loss_zero => fle (loss k) (zeroPrecisionTolerance s) = true
  | Unknown => False
  end.
