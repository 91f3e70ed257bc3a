(** Model of the layers (the convolution layer has its own file, the activation layer is in the model
    of the activation functions).

    Simplifications, for every definition in this file: exact real arithmetic instead of [float] and
    [double]; tensors are materialized with 32 bits (16 and 8 bits round, see the models of the short
    floats); a layer after an exception is not modelled; profiling, labels and shapes that are only stored are left out. *)
From Coq Require Import List Arith Bool Reals.
From Verif Require Import Outcome Tensor_Model Reduce_Model Activation_Model.
Import ListNotations.
Local Open Scope R_scope.

Notation T := (tensor R).

(** The queue of a batch as one tensor: the first element plus the others, in order. *)
Definition queue_sum (first : T) (rest : list T) : outcome T :=
  fold_left (fun acc next => do acc <- acc; add_view rops acc next) rest (Ok first).

(** ** Fully connected layer *)
(** src/ml/layers/fully_connected_layer.hpp:167-176: the members that change, and the regularization
    strength if L2 is used. *)
Record fc := { fc_weights : T; lastInputs : list T; weights_errors : list T; l2 : option R }.
(** src/ml/layers/fully_connected_layer.hpp:50-69.  [input[0]] of no input is undefined. *)
Definition fc_forward (s : fc) (input : list T) (forTraining : bool) : outcome (fc * T) :=
  match input with
  | [] => UB
  | [lastInput] =>
      let s := if forTraining
               then {| fc_weights := fc_weights s; lastInputs := lastInputs s ++ [lastInput]; weights_errors := weights_errors s; l2 := l2 s |}
               else s in
      do result <- matrix_multiply rops lastInput (fc_weights s); Ok (s, result)
  | _ => Throw
  end.
(** src/ml/layers/fully_connected_layer.hpp:72-132 *)
Definition fc_backward (s : fc) (output_error : T) : outcome (fc * T) :=
  match lastInputs s with
  | [] => Throw
  | first :: rest =>
      do average_last_inputs <- match rest with
                                | [] => Ok first
                                | _ => do sum <- queue_sum first rest;
                                       materialize (scalar_divide sum (INR (length (lastInputs s))))
                                end;
      do product <- matrix_multiply rops output_error (transpose (fc_weights s));
      do input_error <- materialize product;
      do weights_error <- matrix_multiply rops (transpose average_last_inputs) output_error;
      do weights_error <- match l2 s with
                          | None => Ok weights_error
                          | Some strength => add_view rops weights_error (scalar_multiply rops (fc_weights s) strength)
                          end;
      Ok ({| fc_weights := fc_weights s; lastInputs := []; weights_errors := weights_errors s ++ [weights_error]; l2 := l2 s |}, input_error)
  end.
(** src/ml/layers/fully_connected_layer.hpp:134-157; [change] is [calculateWeightsChange] of the optimizer. *)
Definition fc_apply (change : T -> T -> outcome T) (s : fc) : outcome fc :=
  match weights_errors s with
  | [] => Throw
  | first :: rest =>
      do sum <- queue_sum first rest;
      do weights_error <- materialize (scalar_divide sum (INR (length (weights_errors s))));
      do adjusted <- change (fc_weights s) weights_error;
      do weights <- materialize adjusted;
      Ok {| fc_weights := weights; lastInputs := lastInputs s; weights_errors := []; l2 := l2 s |}
  end.

(** ** Bias layer *)
Record bias := { bias_values : T; bias_errors : list T }.
(** src/ml/layers/bias_layer.hpp:44-51 *)
Definition bias_forward (s : bias) (input : list T) : outcome T :=
  match input with
  | [] => UB
  | [x] => add_view rops x (bias_values s)
  | _ => Throw
  end.
(** src/ml/layers/bias_layer.hpp:54-63 *)
Definition bias_backward (s : bias) (output_error : T) : bias * T :=
  ({| bias_values := bias_values s; bias_errors := bias_errors s ++ [output_error] |}, output_error).
(** src/ml/layers/bias_layer.hpp:65-84 *)
Definition bias_apply (change : T -> T -> outcome T) (s : bias) : outcome bias :=
  match bias_errors s with
  | [] => Throw
  | first :: rest =>
      do sum <- queue_sum first rest;
      do output_error <- materialize (scalar_divide sum (INR (length (bias_errors s))));
      do adjusted <- change (bias_values s) output_error;
      do values <- materialize adjusted;
      Ok {| bias_values := values; bias_errors := [] |}
  end.

(** src/ml/optimizers/mbgd_optimizer.hpp:53-71: the change of plain gradient descent, as tensors. *)
Definition descend (rate : R) (params gradient : T) : outcome T :=
  subtract_view rops params (scalar_multiply rops gradient rate).

(** ** Concatenation *)
Notation shape := (nat * nat * nat)%type.
(** src/ml/layers/concatenate_wide_layer.hpp:18-41: whether the constructor accepts the shapes (rows,
    columns, channels); with no shape at all [input_shapes[0]] is undefined. *)
Definition concat_accepts (shapes : list shape) : outcome unit :=
  match shapes with
  | [] => UB
  | (r, _, k) :: rest =>
      if (length shapes <? 2)%nat then Throw
      else if forallb (fun '(r', _, k') => (r' =? r) && (k' =? k))%nat shapes then Ok tt else Throw
  end.
(** src/ml/layers/concatenate_wide_layer.hpp:43-57 *)
Definition concat_forward (input : list T) : outcome T :=
  match input with
  | a :: b :: rest => do result <- concat_wide a b;
                      fold_left (fun acc next => do acc <- acc; concat_wide acc next) rest (Ok result)
  | _ => Throw
  end.
(** src/ml/layers/concatenate_wide_layer.hpp:59-73 *)
Fixpoint concat_backward (shapes : list shape) (start_column : nat) (output_error : T) : outcome (list T) :=
  match shapes with
  | [] => Ok []
  | (_, input_column_count, _) :: shapes =>
      do error_view <- window output_error start_column (start_column + input_column_count);
      do rest <- concat_backward shapes (start_column + input_column_count) output_error;
      Ok (error_view :: rest)
  end.

(** ** Flattening *)
(** src/ml/layers/flatten_layer.hpp:13-26: what comes out, and the rows and columns remembered. *)
Definition flatten_forward (input : list T) : outcome (T * (nat * nat)) :=
  match input with
  | [x] => Ok (if (rows x =? 1)%nat then x else row_flatten x, (rows x, cols x))
  | _ => Throw
  end.
(** src/ml/layers/flatten_layer.hpp:28-35 *)
Definition flatten_backward (original : nat * nat) (output_error : T) : outcome T :=
  let (originalRows, originalCols) := original in
  if ((originalRows =? rows output_error) && (originalCols =? cols output_error))%nat then Ok output_error
  else reshape output_error originalRows originalCols.

(** ** Dropout *)
(** src/ml/layers/dropout_layer.hpp:14-21: the constructor; [None] is an exception.  A rate of 1 gives a
    scale of infinity, which has no counterpart here. *)
Definition dropout_scale (rate : R) : option R :=
  if Rlt_dec rate 0 then None else if Rlt_dec 1 rate then None else Some (1 / (1 - rate)).
(** src/ml/layers/dropout_layer.hpp:24-37: a training pass, and the mask kept; [random] are the elements of
    the pseudo-random tensor for this call. *)
Definition dropout_train (rate : R) (random : nat -> nat -> nat -> R) (x : T) : outcome (T * T) :=
  let random_tensor := {| rows := rows x; cols := cols x; chans := chans x; get := fun r c k => Ok (random r c k) |} in
  let dropout_mask := masked_select rops random_tensor (uniform (rows x) (cols x) (chans x) 1) (uniform (rows x) (cols x) (chans x) 0) rate in
  do y <- multiply_view rops x dropout_mask; Ok (y, dropout_mask).
(** src/ml/layers/dropout_layer.hpp:38 *)
Definition dropout_predict (scale : R) (x : T) : outcome T :=
  multiply_view rops x (uniform (rows x) (cols x) (chans x) scale).
(** src/ml/layers/dropout_layer.hpp:41-44; without a training pass the mask is a null pointer. *)
Definition dropout_backward (dropout_mask : option T) (output_error : T) : outcome T :=
  match dropout_mask with Some mask => multiply_view rops output_error mask | None => UB end.

(** ** Normalization *)
(** src/types/tensor_views/standardize_tensor_view.hpp:14-33: the mean and the deviation it uses; the
    deviation of a tensor without elements (a division by zero) is never used. *)
Definition standardize_parameters (t : T) : outcome (R * R) :=
  let total_elements := INR (size t) in
  do s <- loop (size t) 0 (fun element '(mean, M2) =>
              do value <- flat t element;
              let delta := value - mean in
              let mean := mean + delta / total_elements in
              let delta2 := value - mean in
              Ok (mean, M2 + delta * delta2)) (0, 0);
  let '(mean, M2) := s in
  let variance := M2 / total_elements in
  Ok (mean, if Req_EM_T variance 0 then 1 else sqrt variance).
(** src/types/tensor_views/standardize_tensor_view.hpp:39-42 *)
Definition standardized (mean std_dev : R) (t : T) : T := value_transform (fun val => (val - mean) / std_dev) t.
(** src/ml/layers/normalization_layer.hpp:23-43: what comes out, and the mean and deviation kept with it. *)
Definition normalization_forward (input : list T) : outcome (T * (R * R)) :=
  match input with
  | [] => UB
  | [x] => do p <- standardize_parameters x; Ok (standardized (fst p) (snd p) x, p)
  | _ => Throw
  end.
(** src/types/tensor_views/standardize_derivative_tensor_view.hpp:19-45 *)
Definition standardize_derivative (mean_ std_dev_ : R) (d_output input_ : T) : T :=
  let total_elements := INR (size input_) in
  {| rows := rows d_output; cols := cols d_output; chans := chans d_output;
     get := fun row column channel =>
       do d_output_value <- get d_output row column channel;
       do input_value <- get input_ row column channel;
       let common := d_output_value / (std_dev_ * total_elements) in
       let dx1 := d_output_value / std_dev_ in
       let dx2 := - common * (input_value - mean_) in
       let diff := input_value - mean_ in
       let common := d_output_value * diff / (std_dev_ * std_dev_ * std_dev_ * total_elements) in
       let dx3 := - total_elements * diff * common in
       Ok (dx1 + dx2 + dx3) |}.
(** src/ml/layers/normalization_layer.hpp:45-60; [last] is the tensor that came out of the last training
    pass with its mean and deviation. *)
Definition normalization_backward (last : option (T * (R * R))) (output_error : T) : outcome T :=
  match last with
  | None => Throw
  | Some (lastInput, (mean, std_dev)) => Ok (standardize_derivative mean std_dev output_error lastInput)
  end.
