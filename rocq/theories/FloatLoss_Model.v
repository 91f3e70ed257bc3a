(** Model of the loss functions as the code computes them: with [float] numbers, the sums in [double].

    Simplifications: every operation is rounded to [float] and operations are not fused; [logf] and [powf] of the C library
    are arbitrary functions, of which the theorems say what they need. *)
From Coq Require Import List Arith Bool ZArith.
From Flocq Require Import Core IEEE754.BinarySingleNaN IEEE754.Binary IEEE754.Bits.
From Verif Require Import Outcome Tensor_Model F32_Model Reduce_Model FloatNet_Model FloatOpt_Model.
Import ListNotations.

Section Library.
Context (logf : F -> F) (powf : F -> F -> F).
(** [std::clamp(v, lo, hi)]: NaN stays NaN. *)
Definition float_clamp (v lo hi : F) : F := if flt v lo then lo else if flt hi v then hi else v.
(** The constant expression [1.0f - 1e-8f] (src/types/tensor_views/log_tensor_view.hpp:26, src/ml/losses/binary_cross_entropy.hpp:22-23). *)
Definition float_below_one : F := fsub float1 float_epsilon.
(** src/types/tensor_views/clip_tensor_view.hpp:23-26 *)
Definition float_clip_view (t : FT) (lo hi : F) : FT := transform (fun v => float_clamp v lo hi) t.
(** src/types/tensor_views/log_tensor_view.hpp:24-27 *)
Definition float_log_view (t : FT) : FT := transform (fun v => logf (float_clamp v float_epsilon float_below_one)) t.
(** src/types/tensor_views/scalar_subtract_tensor_view.hpp:17-21, 35-36 and 23-27, 37-38 *)
Definition float_subtract_from (adjustment : F) (t : FT) : FT := transform (fun v => fsub adjustment v) t.
Definition float_scalar_subtract (t : FT) (adjustment : F) : FT := transform (fun v => fsub v adjustment) t.
(** src/types/tensor_views/absolute_tensor_view.hpp:20-23 *)
Definition float_absolute_view (t : FT) : FT := transform (Babs 24 128 unop_nan_pl32) t.
(** src/types/tensor_views/power_tensor_view.hpp:20-23 with the exponent 2 *)
Definition float_square_view (t : FT) : FT := transform (fun v => powf v (of_Z 2)) t.
(** src/types/tensor_views/less_than_scalar_tensor_view.hpp:15-18 *)
Definition float_less_than_view (t : FT) (scalar : F) : FT := transform (fun v => float_of_bool (flt v scalar)) t.
(** src/types/base_tensors.hpp:467-495 [arithmeticMean]: the average and the index are [double]. *)
Definition mean_step (s : D * D) (v : F) : D * D :=
  let '(average, index) := s in let index := dadd index (double_of 1) in (dadd average (ddiv (dsub (widen v) average) index), index).
Definition float_mean (t : FT) : outcome F :=
  do s <- scan t (fun s v => Ok (mean_step s v)) (double0, double0);
  Ok (narrow (fst s)).

(** src/ml/loss.hpp:17-29 [LossFunction] *)
Record float_loss := {
  float_error : FT -> FT -> outcome FT;            (* truth, prediction *)
  float_value : FT -> outcome F;                   (* error *)
  float_derivative : FT -> FT -> FT -> outcome FT  (* error, truth, prediction *)
}.
(** src/ml/losses/mse_loss.hpp:10-31 *)
Definition float_mse : float_loss := {|
  float_error truth prediction := subtract_view fops prediction truth;
  float_value total_error := float_mean (float_square_view total_error);
  float_derivative total_batch_error truth prediction := Ok (scalar_multiply fops total_batch_error (of_Z 2)) |}.
(** src/ml/losses/mae_loss.hpp:14-38 *)
Definition float_mae : float_loss := {|
  float_error truth prediction := do d <- subtract_view fops prediction truth; Ok (float_absolute_view d);
  float_value total_error := float_mean total_error;
  float_derivative total_batch_error truth prediction :=
    do error_diff <- subtract_view fops prediction truth; Ok (scalar_multiply fops error_diff (of_Z (-1))) |}.
(** src/ml/losses/smae_loss.hpp:17-60; [smoothness] is 1. *)
Definition float_smae : float_loss :=
  let smoothness := float1 in {|
  float_error truth prediction :=
    do error_diff <- subtract_view fops prediction truth;
    let abs_error_diff := float_absolute_view error_diff in
    let squared_error_diff := float_square_view error_diff in
    let smooth_part := scalar_multiply fops squared_error_diff (fdiv float_half smoothness) in
    let unsmooth_part := float_scalar_subtract abs_error_diff (fmul float_half smoothness) in
    let smooth_mask := float_less_than_view abs_error_diff smoothness in
    Ok (masked_select fops smooth_mask smooth_part unsmooth_part float0);
  float_value total_error := do s <- float_sum total_error; Ok (fdiv (narrow s) (of_Z (Z.of_nat (size total_error))));
  float_derivative total_batch_error truth prediction :=
    do error_diff <- subtract_view fops prediction truth;
    let abs_error_diff := float_absolute_view error_diff in
    let smooth_derivative := scalar_multiply fops error_diff (fdiv float1 smoothness) in
    let unsmooth_derivative := scalar_multiply fops error_diff (of_Z (-1)) in
    let smooth_mask := float_less_than_view abs_error_diff smoothness in
    Ok (masked_select fops smooth_mask smooth_derivative unsmooth_derivative float0) |}.
(** src/ml/losses/binary_cross_entropy.hpp:16-73 *)
Definition float_bce : float_loss := {|
  float_error truth prediction :=
    let clip_prediction := float_clip_view prediction float_epsilon float_below_one in
    let clip_one_minus_prediction := float_clip_view (float_subtract_from float1 prediction) float_epsilon float_below_one in
    let log_prediction := float_log_view clip_prediction in
    let log_one_minus_prediction := float_log_view clip_one_minus_prediction in
    let one_minus_truth := float_subtract_from float1 truth in
    do a <- multiply_view fops truth log_prediction;
    do b <- multiply_view fops one_minus_truth log_one_minus_prediction;
    do total_error <- add_view fops a b;
    Ok (scalar_multiply fops total_error (of_Z (-1)));
  float_value total_error := do s <- float_sum total_error; Ok (narrow s);
  float_derivative total_batch_error truth prediction :=
    do truth_div_prediction <- divide_view fops float_epsilon truth prediction;
    let one_minus_truth := float_subtract_from float1 truth in
    let one_minus_prediction := float_subtract_from float1 prediction in
    do d <- divide_view fops float_epsilon one_minus_truth one_minus_prediction;
    do unscaled_derivative <- subtract_view fops truth_div_prediction d;
    Ok (scalar_multiply fops unscaled_derivative (of_Z (-1))) |}.
(** src/ml/losses/categorical_cross_entropy_loss.hpp:24-59 *)
Definition float_cce : float_loss := {|
  float_error truth prediction :=
    let negative_truth := scalar_multiply fops truth (of_Z (-1)) in
    let log_pred := float_log_view prediction in
    multiply_view fops negative_truth log_pred;
  float_value error := do s <- float_sum error; Ok (narrow s);
  float_derivative total_batch_error truth prediction := subtract_view fops prediction truth |}.

(** src/ml/neural_network.hpp:471-483: the loss of one record, and what is passed back to the network. *)
Definition float_loss_of (L : float_loss) (truth prediction : FT) : outcome F :=
  do error <- float_error L truth prediction; float_value L error.
Definition float_derivative_of (L : float_loss) (truth prediction : FT) : outcome FT :=
  do error <- float_error L truth prediction; float_derivative L error truth prediction.
End Library.

(** src/ml/activators/sigmoid_activation_function.hpp:22-29 [derivative] *)
Definition float_sigmoid_derivative (lib : library) (original : F) : F :=
  let sig := fdiv float1 (fadd float1 (expf lib (fmul (of_Z (-1)) original))) in fmul sig (fsub float1 sig).
(** src/ml/layers/activation_layer.hpp:29-56 [backward] of a sigmoid activation, after one [forward] with [last_input]. *)
Definition float_sigmoid_backward (lib : library) (last_input output_error : FT) : outcome FT :=
  multiply_view fops (transform (float_sigmoid_derivative lib) last_input) output_error.
(** One output with a sigmoid activation that is trained for the record with this truth: the prediction is made
    (sigmoid_activation_function.hpp:15-20), the derivative of the loss is computed and passed back through the activation. *)
Definition passed_back (lib : library) (L : float_loss) (score truth : FT) : outcome FT :=
  do e <- float_derivative_of L truth (transform (float_sigmoid lib) score); float_sigmoid_backward lib score e.
