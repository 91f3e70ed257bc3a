(** Model of training one fully connected layer without bias and activation in [float], one record at a time, with the mean squared error and plain
    gradient descent.  Simplifications: batches of one record; tensors are materialized with 32 bits, which changes nothing; no L2 regularization. *)
From Coq Require Import List ZArith.
From Flocq Require Import IEEE754.Binary IEEE754.Bits.
From Verif Require Import Outcome F32_Model Tensor_Model Reduce_Model FloatNet_Model FloatOpt_Model FloatLoss_Model.
Import ListNotations.

Section Training.
Context (powf : F -> F -> F) (lr : F).
(** src/ml/layers/fully_connected_layer.hpp:50-69 [forward] *)
Definition linear_forward (weights x : FT) : outcome FT := matrix_multiply fops x weights.
(** src/ml/neural_network.hpp:471-483 with src/ml/losses/mse_loss.hpp:10-31, then src/ml/layers/fully_connected_layer.hpp:72-132 [backward] for one
    record and the division of src/ml/layers/fully_connected_layer.hpp:149-151 by the number of records. *)
Definition linear_gradient (weights x truth : FT) : outcome FT :=
  do prediction <- linear_forward weights x;
  do output_error <- float_derivative_of (float_mse powf) truth prediction;
  do weights_error <- matrix_multiply fops (transpose x) output_error;
  Ok (transform (fun v => fdiv v (of_Z 1)) weights_error).
(** src/ml/layers/fully_connected_layer.hpp:153-156 with src/ml/optimizers/mbgd_optimizer.hpp:53-63 *)
Definition linear_apply (weights weights_error : FT) : outcome FT := pointwise (float_descent_step lr) weights weights_error.
(** One record, its input and its truth. *)
Definition train_record (weights : FT) (record : FT * FT) : outcome FT :=
  do g <- linear_gradient weights (fst record) (snd record); linear_apply weights g.
Fixpoint train_records (weights : FT) (records : list (FT * FT)) : outcome FT :=
  match records with
  | [] => Ok weights
  | r :: rs => do weights <- train_record weights r; train_records weights rs
  end.
End Training.
