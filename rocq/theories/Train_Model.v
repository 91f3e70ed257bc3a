(** Model of the training loop, [NeuralNetworkForTraining::train].

    The network is abstract: a state with the operations in [network].  Time and the order in which
    the shuffled data set delivers its records are arguments. *)
From Coq Require Import ZArith NArith List Arith Bool.
From Flocq Require Import IEEE754.Bits.
From Verif Require Import Outcome F32_Model Exit_Model.
Import ListNotations.

(** The arithmetic the losses are computed with. *)
Record arith (F : Type) := { azero : F; aadd : F -> F -> F; asub : F -> F -> F; adiv : F -> F -> F; aof_nat : nat -> F }.
Arguments azero {F}. Arguments aadd {F}. Arguments asub {F}. Arguments adiv {F}. Arguments aof_nat {F}.
Definition float_arith : arith binary32 :=
  {| azero := of_bits 0; aadd := fadd; asub := fsub; adiv := fdiv; aof_nat := fun n => of_Z (Z.of_nat n) |}.

(** What the training loop does with the network.
    [observe]: src/ml/neural_network.hpp:465-485, predict a record for training, compute the loss for
    each output (an exception if it is NaN), send the derivative back; gives the loss of the record.
    [update]: src/ml/neural_network.hpp:491-493, apply the accumulated errors.
    [measure]: src/ml/neural_network.hpp:588-624 [test], the average loss on the test data. *)
Record network (net rec F : Type) := { observe : net -> rec -> outcome (net * F); update : net -> outcome net; measure : net -> outcome F }.
Arguments observe {net rec F}. Arguments update {net rec F}. Arguments measure {net rec F}.

(** What an epoch did, in order. *)
Inductive event (rec : Type) := Trained (r : rec) | Updated.
Arguments Trained {rec}. Arguments Updated {rec}.

Section Epoch.
Context {net rec F : Type} (A : arith F) (W : network net rec F) (batchSize : nat).

(** src/ml/neural_network.hpp:455-508: the loop over the records of an epoch.
    [current_record / batchSize] is a division of unsigned integers; by zero it is undefined.  The
    [ceil] around it does nothing. *)
Fixpoint epoch_records (records : list rec) (w : net) (batchOffset : nat) (batchLoss epochLoss : F) (current_record : nat)
  : outcome (net * F * list (event rec)) :=
  match records with
  | [] => Ok (w, epochLoss, [])
  | r :: rest =>
      do o <- observe W w r;
      let '(w, loss) := o in
      let batchOffset := S batchOffset in
      let current_record := S current_record in
      let batchLoss := aadd A batchLoss loss in
      if Nat.leb batchSize batchOffset || match rest with [] => true | _ => false end then
        do currentBatch <- (if Nat.eqb batchSize 0 then UB else Ok (current_record / batchSize));
        do w <- update W w;
        let batchLoss := adiv A batchLoss (aof_nat A batchOffset) in
        let epochLoss := aadd A epochLoss (adiv A (asub A batchLoss epochLoss) (aof_nat A currentBatch)) in
        do o <- epoch_records rest w 0 (azero A) epochLoss current_record;
        let '(w, l, trace) := o in Ok (w, l, Trained r :: Updated :: trace)
      else
        do o <- epoch_records rest w batchOffset batchLoss epochLoss current_record;
        let '(w, l, trace) := o in Ok (w, l, Trained r :: trace)
  end.
(** src/ml/neural_network.hpp:449-508: one epoch; the network after it, the loss, and what happened. *)
Definition epoch (records : list rec) (w : net) : outcome (net * F * list (event rec)) :=
  epoch_records records w 0 (azero A) (azero A) 0.
End Epoch.

Inductive policy := Best | Last.
(** src/ml/neural_network.hpp:19-52 [TrainingResult], the members set by training and derived from losses. *)
Record result := { initial_test_loss : binary32; final_test_loss : binary32; initial_train_loss : binary32; best_train_loss : binary32;
  epochs : nat; trained : bool; generalized : bool }.
Definition minus_infinity : binary32 := of_bits 0xFF800000.
Definition new_result : result := {| initial_test_loss := minus_infinity; final_test_loss := infinity; initial_train_loss := minus_infinity;
  best_train_loss := infinity; epochs := 0; trained := false; generalized := false |}.

(** The variables of the loop: src/ml/neural_network.hpp:430-447.  [checkpoint] is what the checkpoint
    folder holds; saving and loading knowledge are exact (see the models of the tensor file and of
    the walk over the nodes). *)
Record loop_state (net : Type) := { current : net; lowest : binary32; lowest_epoch : nat; checkpoint : option net; report : result; exit : progress }.
Arguments current {net}. Arguments lowest {net}. Arguments lowest_epoch {net}. Arguments checkpoint {net}. Arguments report {net}. Arguments exit {net}.

Section Train.
Context {net rec : Type} (W : network net rec binary32) (s : settings) (batchSize : nat) (use_test : bool) (retention : policy)
  (order : nat -> list rec) (duration : nat -> Z).

(** src/ml/neural_network.hpp:518-526 *)
Definition report_training (epoch : nat) (loss : binary32) (r : result) : result :=
  match epoch with
  | O => {| initial_test_loss := initial_test_loss r; final_test_loss := final_test_loss r; initial_train_loss := loss; best_train_loss := loss;
            epochs := epochs r; trained := trained r; generalized := generalized r |}
  | _ => let b := if flt loss (best_train_loss r) then loss else best_train_loss r in
         {| initial_test_loss := initial_test_loss r; final_test_loss := final_test_loss r; initial_train_loss := initial_train_loss r; best_train_loss := b;
            epochs := epochs r; trained := flt b (initial_train_loss r); generalized := generalized r |}
  end.
(** src/ml/neural_network.hpp:530-548; [final_test_loss] and [epochs] get the same values under both policies. *)
Definition report_testing (epoch : nat) (loss : binary32) (r : result) : result :=
  let initial := if flt (initial_test_loss r) (of_bits 0) then loss else initial_test_loss r in
  if flt loss (final_test_loss r)
  then {| initial_test_loss := initial; final_test_loss := loss; initial_train_loss := initial_train_loss r; best_train_loss := best_train_loss r;
          epochs := epoch; trained := trained r; generalized := trained r |}
  else {| initial_test_loss := initial; final_test_loss := final_test_loss r; initial_train_loss := initial_train_loss r; best_train_loss := best_train_loss r;
          epochs := epochs r; trained := trained r; generalized := generalized r |}.

(** src/ml/neural_network.hpp:446-559: one round of the loop: epoch number [e] (from 0), then the
    question to the exit strategy.  The time given to the strategy is the result of
    [epochTimer.getMilliseconds()] (src/util/timers.hpp:35-40), which restarts the timer: it is the
    time since the last question, [duration e], not the time since training began. *)
Definition round (e : nat) (st : loop_state net) : outcome (loop_state net * bool) :=
  do o <- epoch float_arith W batchSize (order e) (current st);
  let '(w, training_loss, _) := o in
  do testing_loss <- (if use_test then measure W w else Ok training_loss);
  let r := report_training e training_loss (report st) in
  let st' :=
    if flt testing_loss (lowest st)
    then {| current := w; lowest := testing_loss; lowest_epoch := e; checkpoint := match retention with Best => Some w | Last => checkpoint st end;
            report := report_testing e testing_loss r; exit := exit st |}
    else {| current := w; lowest := lowest st; lowest_epoch := lowest_epoch st; checkpoint := checkpoint st; report := r; exit := exit st |} in
  do d <- isDone s (exit st') (S e) testing_loss (duration e);
  let '(p, done) := d in
  Ok ({| current := current st'; lowest := lowest st'; lowest_epoch := lowest_epoch st'; checkpoint := checkpoint st'; report := report st'; exit := p |}, done).

(** The do-while loop, at most [fuel] rounds; [None] when it is not done by then. *)
Fixpoint rounds (fuel e : nat) (st : loop_state net) : outcome (option (loop_state net)) :=
  match fuel with
  | O => Ok None
  | S fuel => do o <- round e st; let '(st, done) := o in if done then Ok (Some st) else rounds fuel (S e) st
  end.
(** src/ml/neural_network.hpp:580-585: with the best policy the checkpoint is loaded; there being none
    (no loss was below infinity) is not modelled further: the tensor files do not exist. *)
Definition finish (st : loop_state net) : outcome (net * result) :=
  match retention with
  | Best => match checkpoint st with Some w => Ok (w, report st) | None => UB end
  | Last => Ok (current st, report st)
  end.
End Train.

(** src/ml/neural_network.hpp:387-586 [train], without the checks of the shapes (409-424) and without
    output (the [result->epochs] set at 573-575 only when printing is left out).  [batch] is an [int]
    compared with an unsigned number of records: a negative one is larger than any.  [p] is the state
    of the exit strategy.  At most [fuel] epochs; [None] when training is not over by then. *)
Definition train {net rec : Type} (W : network net rec binary32) (s : settings) (use_test : bool) (retention : policy)
  (order : nat -> list rec) (duration : nat -> Z) (fuel : nat) (batch : Z) (records : nat) (w : net) (p : progress) : outcome (option (net * result)) :=
  if Z.ltb batch 0 || Z.ltb (Z.of_nat records) batch then Throw
  else do st <- rounds W s (Z.to_nat batch) use_test retention order duration fuel 0
                  {| current := w; lowest := infinity; lowest_epoch := 0; checkpoint := None; report := new_result; exit := p |};
       match st with Some st => do x <- finish retention st; Ok (Some x) | None => Ok None end.
