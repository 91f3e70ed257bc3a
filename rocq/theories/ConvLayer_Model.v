(** Model of the 2-D convolution layer. *)
From Coq Require Import List Arith Bool.
From Verif Require Import Outcome Tensor_Model.
Import ListNotations.

Section Layer.
Context {A : Type} (o : ops A).
Notation T := (tensor A).

(** src/ml/layers/convolution_2d_valid_layer.hpp:71-83: the correlations of all input channels
    with one filter, added up ([None] is the null pointer). *)
Definition conv_channels (x weight : T) (inputDepth : nat) : outcome (option T) :=
  loop inputDepth 0 (fun inputLayer (outputTensor : option T) =>
    let correlation2d := valid_correlation o (channel_to o x inputLayer) (channel_to o weight inputLayer) in
    match outputTensor with
    | Some t => do u <- add_view o t correlation2d; Ok (Some u)
    | None => Ok (Some correlation2d)
    end) None.

(** src/ml/layers/convolution_2d_valid_layer.hpp:55-101 [forward] for one input (more throw, line 57).
    [filters] is [outputShape[2]], [inputDepth] is [inputShape[2]].  Using a null tensor is undefined;
    the profiling and the queue of inputs are left out. *)
Definition conv_forward (weights : list T) (filters inputDepth : nat) (x : T) : outcome T :=
  do r <- loop filters 0 (fun outputLayer (result : option T) =>
    do w <- vec_at weights outputLayer;
    do c <- conv_channels x w inputDepth;
    match c with
    | None => UB
    | Some outputTensor =>
        let summed := sum_to_channel o outputTensor outputLayer filters in
        match result with
        | None => Ok (Some summed)
        | Some t => do u <- add_view o t summed; Ok (Some u)
        end
    end) None;
  match r with Some t => Ok t | None => UB end.

(** src/ml/layers/convolution_2d_valid_layer.hpp:131-153: one filter's share of the input error, and
    that filter's weight changes.  [l2] is [Some regularization_strength] when L2 is used. *)
Definition conv_backward_filter (w err last : T) (outputLayer inputDepth : nat) (l2 : option A) (inputError : T)
  : outcome (T * T) :=
  let errForLayer := channel_to o err outputLayer in
  loop inputDepth 0 (fun inputLayer (s : T * T) =>
    let (inputError, changes) := s in
    let next := full_convolve o errForLayer (channel_to o w inputLayer) in
    do inputError' <- add_view o inputError (sum_to_channel o next inputLayer inputDepth);
    let e := valid_correlation o (channel_to o last inputLayer) errForLayer in
    do e' <- match l2 with
             | None => Ok e
             | Some strength => add_view o e (scalar_multiply o e strength)
             end;
    do changes' <- add_view o changes (sum_to_channel o e' inputLayer inputDepth);
    Ok (inputError', changes')) (inputError, uniform (rows w) (cols w) (chans w) (zero o)).

(** src/ml/layers/convolution_2d_valid_layer.hpp:121-160 [backward]: the error for the previous layer
    and the weight changes queued for [apply].  [last] is the average of the queued inputs (lines
    105-119); [inputShape] is (r, c, inputDepth). *)
Definition conv_backward (weights : list T) (filters r c inputDepth : nat) (l2 : option A) (last err : T)
  : outcome (T * list T) :=
  do s <- loop filters 0 (fun outputLayer (s : T * list T) =>
    let (inputError, all) := s in
    do w <- vec_at weights outputLayer;
    do p <- conv_backward_filter w err last outputLayer inputDepth l2 inputError;
    Ok (fst p, all ++ [snd p])) (uniform r c inputDepth (zero o), []);
  Ok (sum_channels o (fst s), snd s).
End Layer.
