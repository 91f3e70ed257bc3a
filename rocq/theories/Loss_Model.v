(** Model of the loss functions.

    Simplification, for every definition in this file: exact real arithmetic instead of [float];
    the [float] literals have their exact value. *)
From Coq Require Import List Arith Bool Reals.
From Verif Require Import Outcome Tensor_Model Reduce_Model Activation_Model.
Import ListNotations.
Local Open Scope R_scope.

(** The literal [1e-8f]. *)
Definition epsilon : R := 11258999 / 2 ^ 50.
(** The constant expression [1.0f - 1e-8f]: rounded to [float] this is exactly 1 (see [one_minus_epsilon]
    in the examples). *)
Definition one_minus_epsilon : R := 1.

(** [std::clamp(v, lo, hi)] *)
Definition clamp (v lo hi : R) : R := if Rlt_dec v lo then lo else if Rlt_dec hi v then hi else v.
(** src/types/tensor_views/clip_tensor_view.hpp:23-26 *)
Definition clip_view (t : tensor R) (lo hi : R) : tensor R := value_transform (fun v => clamp v lo hi) t.
(** src/types/tensor_views/log_tensor_view.hpp:24-27 *)
Definition log_view (t : tensor R) : tensor R := value_transform (fun v => ln (clamp v epsilon one_minus_epsilon)) t.
(** src/types/tensor_views/absolute_tensor_view.hpp:20-23 *)
Definition absolute_view (t : tensor R) : tensor R := value_transform Rabs t.
(** src/types/tensor_views/power_tensor_view.hpp:20-23 with the exponent 2, the only one used here. *)
Definition square_view (t : tensor R) : tensor R := value_transform (fun v => v ^ 2) t.
(** src/types/tensor_views/less_than_scalar_tensor_view.hpp:15-18 *)
Definition less_than_view (t : tensor R) (scalar : R) : tensor R := value_transform (fun v => if Rlt_dec v scalar then 1 else 0) t.

(** src/ml/loss.hpp:17-29 [LossFunction] *)
Record loss := {
  compute_error : tensor R -> tensor R -> outcome (tensor R);                  (* truth, prediction *)
  compute_loss : tensor R -> outcome R;                                        (* error *)
  compute_derivative : tensor R -> tensor R -> tensor R -> outcome (tensor R)  (* error, truth, prediction *)
}.

(** src/ml/losses/mse_loss.hpp:10-31 *)
Definition mse : loss := {|
  compute_error truth prediction := subtract_view rops prediction truth;
  compute_loss total_error := arithmeticMean (square_view total_error);
  compute_derivative total_batch_error truth prediction := Ok (scalar_multiply rops total_batch_error 2) |}.

(** src/ml/losses/mae_loss.hpp:14-38 *)
Definition mae : loss := {|
  compute_error truth prediction := do d <- subtract_view rops prediction truth; Ok (absolute_view d);
  compute_loss total_error := arithmeticMean total_error;
  compute_derivative total_batch_error truth prediction :=
    do error_diff <- subtract_view rops prediction truth; Ok (scalar_multiply rops error_diff (-1)) |}.

(** src/ml/losses/smae_loss.hpp:17-60; [smoothness] is 1.  [compute_loss] divides by the number of
    elements; for an empty tensor the division gives NaN in the code. *)
Definition smae : loss :=
  let smoothness := 1 in {|
  compute_error truth prediction :=
    do error_diff <- subtract_view rops prediction truth;
    let abs_error_diff := absolute_view error_diff in
    let squared_error_diff := square_view error_diff in
    let smooth_part := scalar_multiply rops squared_error_diff (/ 2 / smoothness) in
    let unsmooth_part := scalar_subtract abs_error_diff (/ 2 * smoothness) in
    let smooth_mask := less_than_view abs_error_diff smoothness in
    Ok (masked_select rops smooth_mask smooth_part unsmooth_part 0);
  compute_loss total_error := do s <- Reduce_Model.sum rops total_error; Ok (s / INR (size total_error));
  compute_derivative total_batch_error truth prediction :=
    do error_diff <- subtract_view rops prediction truth;
    let abs_error_diff := absolute_view error_diff in
    let smooth_derivative := scalar_multiply rops error_diff (1 / smoothness) in
    let unsmooth_derivative := scalar_multiply rops error_diff (-1) in
    let smooth_mask := less_than_view abs_error_diff smoothness in
    Ok (masked_select rops smooth_mask smooth_derivative unsmooth_derivative 0) |}.

(** src/ml/losses/binary_cross_entropy.hpp:16-73 *)
Definition bce : loss := {|
  compute_error truth prediction :=
    let clip_prediction := clip_view prediction epsilon one_minus_epsilon in
    let clip_one_minus_prediction := clip_view (scalar_subtract_from 1 prediction) epsilon one_minus_epsilon in
    let log_prediction := log_view clip_prediction in
    let log_one_minus_prediction := log_view clip_one_minus_prediction in
    let one_minus_truth := scalar_subtract_from 1 truth in
    do a <- multiply_view rops truth log_prediction;
    do b <- multiply_view rops one_minus_truth log_one_minus_prediction;
    do total_error <- add_view rops a b;
    Ok (scalar_multiply rops total_error (-1));
  compute_loss total_error := Reduce_Model.sum rops total_error;
  compute_derivative total_batch_error truth prediction :=
    do truth_div_prediction <- divide_view rops epsilon truth prediction;
    let one_minus_truth := scalar_subtract_from 1 truth in
    let one_minus_prediction := scalar_subtract_from 1 prediction in
    do d <- divide_view rops epsilon one_minus_truth one_minus_prediction;
    do unscaled_derivative <- subtract_view rops truth_div_prediction d;
    Ok (scalar_multiply rops unscaled_derivative (-1)) |}.

(** src/ml/losses/categorical_cross_entropy_loss.hpp:24-59 *)
Definition cce : loss := {|
  compute_error truth prediction :=
    let negative_truth := scalar_multiply rops truth (-1) in
    let log_pred := log_view prediction in
    multiply_view rops negative_truth log_pred;
  compute_loss error := Reduce_Model.sum rops error;
  compute_derivative total_batch_error truth prediction := subtract_view rops prediction truth |}.

(** One record, as in src/ml/neural_network.hpp:[compute_error] then [compute_loss] /
    [compute_loss_derivative]. *)
Definition loss_of (L : loss) (truth prediction : tensor R) : outcome R :=
  do error <- compute_error L truth prediction; compute_loss L error.
Definition derivative_of (L : loss) (truth prediction : tensor R) : outcome (tensor R) :=
  do error <- compute_error L truth prediction; compute_derivative L error truth prediction.
