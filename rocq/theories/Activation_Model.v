(** Model of the activation functions.

    Simplification, for every definition in this file: exact real arithmetic instead of [float];
    the [float] literals have their exact value. *)
From Coq Require Import List Arith Bool Reals.
From Verif Require Import Outcome Tensor_Model Reduce_Model.
Import ListNotations.
Local Open Scope R_scope.

Definition rops : ops R := {| zero := 0; one := 1; add := Rplus; sub := Rminus; mul := Rmult; div := Rdiv;
                              eqb := fun x y => if Req_EM_T x y then true else false; gtb := Rgt_bool |}.

(** src/types/tensor_views/value_transform_tensor_view.hpp:13-32, and the views that apply one
    function to every element. *)
Definition value_transform (g : R -> R) (t : tensor R) : tensor R :=
  {| rows := rows t; cols := cols t; chans := chans t;
     get := fun r c k => do v <- get t r c k; Ok (g v) |}.

(** src/types/tensor_impls/uniform_tensor.hpp: every element is [v]. *)
Definition uniform_like (v : R) (t : tensor R) : tensor R :=
  {| rows := rows t; cols := cols t; chans := chans t; get := fun _ _ _ => Ok v |}.

(** The literal [0.01f]. *)
Definition leak : R := 10737418 / 2 ^ 30.
Definition of_bool (b : bool) : R := if b then 1 else 0.

(** src/ml/activators/relu_activation_function.hpp:17-19, 24-30 *)
Definition relu (x : R) : R := if Rlt_dec x 0 then 0 else x.
Definition relu_d (x : R) : R := if Rlt_dec 0 x then 1 else 0.
(** src/ml/activators/leaky_relu_activation_function.hpp:15-18, 23-26 *)
Definition negative (x : R) : bool := if Rlt_dec x 0 then true else false.
Definition leaky (x : R) : R := of_bool (negative x) * (leak * x) + of_bool (negb (negative x)) * x.
Definition leaky_d (x : R) : R := of_bool (negative x) * leak + of_bool (negb (negative x)) * 1.
(** src/ml/activators/sigmoid_activation_function.hpp:16-18, 24-27 *)
Definition sigmoid (x : R) : R := 1 / (1 + exp (-1 * x)).
Definition sigmoid_d (x : R) : R := let sig := 1 / (1 + exp (-1 * x)) in sig * (1 - sig).
(** src/ml/activators/sigmoid_approx_activation_function.hpp:16-18, 24-28 *)
Definition sigmoid_approx (x : R) : R := / 2 * ((x / (1 + Rabs x)) + 1).
Definition sigmoid_approx_d (x : R) : R := let sig := / 2 * ((x / (1 + Rabs x)) + 1) in sig * (1 - sig).
(** src/ml/activators/tanh_activation_function.hpp:17-24, 29-33 *)
Definition tanh_ (x : R) : R := tanh x.
Definition tanh_d (x : R) : R := let th := tanh x in 1 - th * th.
(** src/ml/activators/tanh_approx_activation_function.hpp:20-26, 33-41 *)
Definition tanh_approx (x : R) : R := let twoX := 2 * x in let sigmoid := 1 / (1 + exp (-1 * twoX)) in 2 * sigmoid - 1.
Definition tanh_approx_d (x : R) : R :=
  let two_x := 2 * x in let sigmoid := 1 / (1 + exp (-1 * two_x)) in let th := 2 * sigmoid - 1 in 1 - th * th.

(** [BaseTensor::max] (src/types/base_tensors.hpp:266-279) on exact numbers; [None] is minus infinity. *)
Definition real_max (t : tensor R) : outcome (option R) :=
  scan t (fun result v => Ok (match result with
                              | None => Some v
                              | Some m => if Rlt_dec m v then Some v else Some m
                              end)) None.
(** src/types/tensor_views/scalar_subtract_tensor_view.hpp:23-27, 38 *)
Definition scalar_subtract (t : tensor R) (adjustment : R) : tensor R := value_transform (fun v => v - adjustment) t.
(** src/types/tensor_views/scalar_subtract_tensor_view.hpp:17-21, 36 *)
Definition scalar_subtract_from (adjustment : R) (t : tensor R) : tensor R := value_transform (fun v => adjustment - v) t.
(** src/types/tensor_views/exponential_tensor_view.hpp:19-22 *)
Definition exponential (t : tensor R) : tensor R := value_transform exp t.
(** src/types/tensor_views/scalar_divide_tensor_view.hpp:17-21, 35 *)
Definition scalar_divide (t : tensor R) (denominator : R) : tensor R := value_transform (fun v => v / denominator) t.

(** src/ml/activators/softmax_activation_function.hpp:19-27.  For a tensor without elements the
    subtraction is never evaluated. *)
Definition softmax (t : tensor R) : outcome (tensor R) :=
  do max_input <- real_max t;
  let input_minus_max := scalar_subtract t (match max_input with Some m => m | None => 0 end) in
  let numerator := exponential input_minus_max in
  do denominator <- Reduce_Model.sum rops numerator;
  Ok (scalar_divide numerator denominator).
(** src/ml/activators/softmax_activation_function.hpp:29-32 *)
Definition softmax_derivative (t : tensor R) : tensor R := t.

(** The activation functions the builder offers (src/ml/happyml_dsl.hpp:533-560). *)
Inductive activation := Linear | Relu | Leaky | Sigmoid | SigmoidApprox | Tanh | TanhApprox | Softmax.
(** [activate] and [derivative] of each. *)
Definition activate (a : activation) (t : tensor R) : outcome (tensor R) :=
  match a with
  | Linear => Ok t
  | Relu => Ok (value_transform relu t)
  | Leaky => Ok (value_transform leaky t)
  | Sigmoid => Ok (value_transform sigmoid t)
  | SigmoidApprox => Ok (value_transform sigmoid_approx t)
  | Tanh => Ok (value_transform tanh_ t)
  | TanhApprox => Ok (value_transform tanh_approx t)
  | Softmax => softmax t
  end.
Definition derivative (a : activation) (t : tensor R) : tensor R :=
  match a with
  | Linear => uniform_like 1 t
  | Relu => value_transform relu_d t
  | Leaky => value_transform leaky_d t
  | Sigmoid => value_transform sigmoid_d t
  | SigmoidApprox => value_transform sigmoid_approx_d t
  | Tanh => value_transform tanh_d t
  | TanhApprox => value_transform tanh_approx_d t
  | Softmax => softmax_derivative t
  end.

(** src/ml/layers/activation_layer.hpp:30-56 [ActivationLayer::backward] on the queue [last_inputs]
    of the batch: the mean of the derivatives, times the error, element by element. *)
Definition activation_backward (a : activation) (last_inputs : list (tensor R)) (output_error : tensor R) : outcome (tensor R) :=
  match last_inputs with
  | [] => Throw
  | first :: rest =>
      do average <- fold_left (fun acc next => do acc <- acc; add_view rops acc (derivative a next)) rest (Ok (derivative a first));
      let average := match rest with [] => average | _ => scalar_divide average (INR (length last_inputs)) end in
      multiply_view rops average output_error
  end.
