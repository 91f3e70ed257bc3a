(** What training should do. *)
From Coq Require Import ZArith List Arith Bool Reals.
From Flocq Require Import IEEE754.Bits.
From Verif Require Import Outcome F32_Model Exit_Model Train_Model.
Import ListNotations.

(** [records] cut into batches of [size]; only the last may be smaller, none is empty. *)
Inductive batched {A} (size : nat) : list A -> list (list A) -> Prop :=
| batched_none : batched size [] []
| batched_last b : 0 < length b <= size -> batched size b [b]
| batched_more b rest bs : length b = size -> rest <> [] -> batched size rest bs -> batched size (b ++ rest) (b :: bs).

(** The events [trace] take the network [w] to [w'], the losses of the records being [losses]. *)
Inductive replays {net rec F} (W : network net rec F) : net -> list (event rec) -> net -> list F -> Prop :=
| replays_end w : replays W w [] w []
| replays_trained w r w1 l tr w' ls : observe W w r = Ok (w1, l) -> replays W w1 tr w' ls -> replays W w (Trained r :: tr) w' (l :: ls)
| replays_updated w w1 tr w' ls : update W w = Ok w1 -> replays W w1 tr w' ls -> replays W w (Updated :: tr) w' ls.

(** A batch: its records, then an update. *)
Definition batch_events {rec} (b : list rec) : list (event rec) := map Trained b ++ [Updated].

(** [N] epochs of training starting from [w]: the networks after them, their training and test losses. *)
Definition trajectory {net rec} (W : network net rec binary32) (batchSize : nat) (use_test : bool) (order : nat -> list rec)
  (w : net) (N : nat) (nets : nat -> net) (training testing : nat -> binary32) : Prop :=
  forall e, e < N -> (exists tr, epoch float_arith W batchSize (order e) (match e with 0 => w | S e' => nets e' end) = Ok (nets e, training e, tr)) /\
    (if use_test then measure W (nets e) = Ok (testing e) else testing e = training e).

(** Epoch [e] has the lowest of the first [N] losses, and no earlier one has it. *)
Definition first_lowest (loss : nat -> binary32) (N e : nat) : Prop :=
  e < N /\ flt (loss e) infinity = true /\ (forall j, j < N -> flt (loss j) (loss e) = false) /\ (forall j, j < e -> fle (loss j) (loss e) = false).

(** Numbering from 1, as the exit strategy is asked. *)
Definition from_one {A} (f : nat -> A) (k : nat) : A := f (k - 1).
(** [x] is one of the first [N] losses and none of them is lower. *)
Definition lowest_of (loss : nat -> binary32) (N : nat) (x : binary32) : Prop :=
  (exists j, j < N /\ x = loss j) /\ forall j, j < N -> flt (loss j) x = false.
