(** Model of a prediction as the code computes it: with [float] numbers, NaN and infinities included.  The same walk over
    the network and the same layers as in the exact model, with IEEE 754 arithmetic.

    Simplifications, for every definition in this file: every operation of [float] is rounded to [float] and operations are
    not fused (no compiler flag of the project asks for anything else); the functions of the C library are arbitrary functions from [float] to [float], of which the
    theorems say what they need; [sqrt] is the correctly rounded square root of IEEE 754; the number of elements of a tensor is exact as a [double] (up to 2^53). *)
From Coq Require Import List Arith Bool ZArith.
From Flocq Require Import Core IEEE754.BinarySingleNaN IEEE754.Binary IEEE754.Bits.
From Verif Require Import Outcome Tensor_Model F32_Model Reduce_Model Graph_Model Layer_Model ConvLayer_Model Net_Model.
From Verif Require ModelFile_Model.
Import ListNotations.
Local Open Scope nat_scope.

Notation D := binary64.
Notation FT := (tensor F).
Definition float0 : F := of_Z 0.
Definition float1 : F := of_Z 1.
(** The literal [0.01f]. *)
Definition float_leak : F := binary_normalize 24 128 prec_ok emax_ok mode_NE 10737418 (-30) false.
(** The literal [0.5f]. *)
Definition float_half : F := binary_normalize 24 128 prec_ok emax_ok mode_NE 1 (-1) false.

(** Arithmetic of [float]. *)
Definition fops : ops F := {| zero := float0; one := float1; add := fadd; sub := fsub; mul := fmul; div := fdiv; eqb := feq; gtb := fgt |}.

(** Conversions between [float] and [double]: the first is exact, the second rounds. *)
Definition prec64_ok : Prec_gt_0 53 := eq_refl.
Definition emax64_ok : Prec_lt_emax 53 1024 := eq_refl.
Definition nan64 : D := B754_nan 53 1024 false (iter_nat xO 51 xH) eq_refl.
Definition nan32 : F := B754_nan 24 128 false (iter_nat xO 22 xH) eq_refl.
Definition widen (x : F) : D :=
  match x with
  | B754_zero _ _ s => B754_zero 53 1024 s
  | B754_infinity _ _ s => B754_infinity 53 1024 s
  | B754_nan _ _ _ _ _ => nan64
  | B754_finite _ _ s m e _ => binary_normalize 53 1024 prec64_ok emax64_ok mode_NE (cond_Zopp s (Zpos m)) e s
  end.
Definition narrow (x : D) : F :=
  match x with
  | B754_zero _ _ s => B754_zero 24 128 s
  | B754_infinity _ _ s => B754_infinity 24 128 s
  | B754_nan _ _ _ _ _ => nan32
  | B754_finite _ _ s m e _ => binary_normalize 24 128 prec_ok emax_ok mode_NE (cond_Zopp s (Zpos m)) e s
  end.

(** src/types/base_tensors.hpp:236-249 [BaseTensor::sum], in [double]. *)
Definition float_sum (t : FT) : outcome D := scan t (fun result v => Ok (b64_plus mode_NE result (widen v))) (B754_zero 53 1024 false).

(** src/types/tensor_views/value_transform_tensor_view.hpp:13-32, and the views that apply one function to every element. *)
Definition transform (g : F -> F) (t : FT) : FT :=
  {| rows := rows t; cols := cols t; chans := chans t; get := fun r c k => do v <- get t r c k; Ok (g v) |}.
Definition float_of_bool (b : bool) : F := if b then float1 else float0.

(** The functions of the C library that the activation functions call. *)
Record library := { expf : F -> F; tanhf : F -> F }.

(** ** Normalization: mean and deviation in [double], the elements in [float] *)
(** Arithmetic with [double]. *)
Definition dadd (x y : D) : D := b64_plus mode_NE x y.
Definition dsub (x y : D) : D := b64_minus mode_NE x y.
Definition dmul (x y : D) : D := b64_mult mode_NE x y.
Definition ddiv (x y : D) : D := b64_div mode_NE x y.
Definition dsqrt (x : D) : D := b64_sqrt mode_NE x.
Definition deq (x y : D) : bool := match b64_compare x y with Some Eq => true | _ => false end.
Definition double0 : D := B754_zero 53 1024 false.
Definition double_of (n : nat) : D := binary_normalize 53 1024 prec64_ok emax64_ok mode_NE (Z.of_nat n) 0 false.

(** src/types/tensor_views/standardize_tensor_view.hpp:17-24: the body of the loop. *)
Definition float_spread (total_elements : D) (s : D * D) (element : F) : D * D :=
  let '(mean, M2) := s in
  let value := widen element in
  let delta := dsub value mean in
  let mean := dadd mean (ddiv delta total_elements) in
  let delta2 := dsub value mean in
  (mean, dadd M2 (dmul delta delta2)).
(** src/types/tensor_views/standardize_tensor_view.hpp:14-33: [mean_] and [std_dev_]. *)
Definition float_parameters (t : FT) : outcome (F * F) :=
  let total_elements := double_of (size t) in
  do s <- loop (size t) 0 (fun element s => do value <- flat t element; Ok (float_spread total_elements s value)) (double0, double0);
  let '(mean, M2) := s in
  let variance := ddiv M2 total_elements in
  Ok (narrow mean, if deq variance double0 then float1 else narrow (dsqrt variance)).
(** src/types/tensor_views/standardize_tensor_view.hpp:39-42 with src/ml/layers/normalization_layer.hpp:23-43, for a prediction. *)
Definition float_normalization (inputs : list FT) : outcome FT :=
  match inputs with
  | [] => UB
  | [x] => do p <- float_parameters x; Ok (transform (fun val => fdiv (fsub val (fst p)) (snd p)) x)
  | _ => Throw
  end.

Section Activations.
Context (lib : library).
(** src/ml/activators/relu_activation_function.hpp:17-19: [std::max(original, 0.0f)] *)
Definition float_relu (x : F) : F := std_max x float0.
(** src/ml/activators/leaky_relu_activation_function.hpp:15-18 *)
Definition float_leaky (x : F) : F := fadd (fmul (float_of_bool (flt x float0)) (fmul float_leak x)) (fmul (float_of_bool (fge x float0)) x).
(** src/ml/activators/sigmoid_activation_function.hpp:16-18 *)
Definition float_sigmoid (x : F) : F := fdiv float1 (fadd float1 (expf lib (fmul (of_Z (-1)) x))).
(** src/ml/activators/sigmoid_approx_activation_function.hpp:16-18 *)
Definition float_sigmoid_approx (x : F) : F := fmul float_half (fadd (fdiv x (fadd float1 (Babs 24 128 unop_nan_pl32 x))) float1).
(** src/ml/activators/tanh_activation_function.hpp:17-24 *)
Definition float_tanh (x : F) : F := tanhf lib x.
(** src/ml/activators/tanh_approx_activation_function.hpp:20-26 *)
Definition float_tanh_approx (x : F) : F :=
  let twoX := fmul (of_Z 2) x in let sigmoid := fdiv float1 (fadd float1 (expf lib (fmul (of_Z (-1)) twoX))) in fsub (fmul (of_Z 2) sigmoid) float1.
(** src/ml/activators/softmax_activation_function.hpp:19-27.  The maximum becomes a [double] and a [float] again, which
    changes nothing; the sum is made in [double] and becomes a [float] as the argument of the division
    (src/types/tensor_views/scalar_divide_tensor_view.hpp:17-21). *)
Definition float_softmax (t : FT) : outcome FT :=
  do max_input <- Reduce_Model.max t;
  let input_minus_max := transform (fun v => fsub v max_input) t in
  let numerator := transform (expf lib) input_minus_max in
  do denominator <- float_sum numerator;
  Ok (transform (fun v => fdiv v (narrow denominator)) numerator).
(** src/ml/happyml_dsl.hpp:533-560 *)
Definition float_activate (a : ModelFile_Model.activation) (t : FT) : outcome FT :=
  match a with
  | ModelFile_Model.linear => Ok t
  | ModelFile_Model.relu => Ok (transform float_relu t)
  | ModelFile_Model.leaky => Ok (transform float_leaky t)
  | ModelFile_Model.sigmoid => Ok (transform float_sigmoid t)
  | ModelFile_Model.sigmoidApprox => Ok (transform float_sigmoid_approx t)
  | ModelFile_Model.tanhDefault => Ok (transform float_tanh t)
  | ModelFile_Model.tanhApprox => Ok (transform float_tanh_approx t)
  | ModelFile_Model.softmax => float_softmax t
  end.

(** The numbers of the layers of a vertex. *)
Record float_params := { float_weights : FT; float_kernels : list FT; float_biases : FT; float_rate : F }.
(** src/ml/layers/dropout_layer.hpp:14-21, 38: the factor of a prediction. *)
Definition float_dropout (rate : F) (x : FT) : outcome FT :=
  let forward_scale := fdiv float1 (fsub float1 rate) in multiply_view fops x (uniform (rows x) (cols x) (chans x) forward_scale).
Section Vertex.
Context (v : vertex) (p : float_params).
(** [forward] of each layer for a prediction: src/ml/layers/flatten_layer.hpp:20-27, fully_connected_layer.hpp:48-63,
    concatenate_wide_layer.hpp:43-57, bias_layer.hpp:38-52, activation_layer.hpp:17-28, dropout_layer.hpp:24-39, convolution_2d_valid_layer.hpp:55-101,
    normalization_layer.hpp:23-43. *)
Definition float_layer_forward (l : layer) (inputs : list FT) : outcome FT :=
  match l with
  | Flatten => match inputs with [x] => Ok (if rows x =? 1 then x else row_flatten x) | _ => Throw end
  | Full => match inputs with [] => UB | [x] => matrix_multiply fops x (float_weights p) | _ => Throw end
  | Concat => match inputs with
              | a :: b :: rest => do result <- concat_wide a b; fold_left (fun acc next => do acc <- acc; concat_wide acc next) rest (Ok result)
              | _ => Throw
              end
  | Bias => match inputs with [] => UB | [x] => add_view fops x (float_biases p) | _ => Throw end
  | Activate => match inputs with [x] => float_activate (ModelFile_Model.activation_type v) x | _ => Throw end
  | Dropout => match inputs with [] => UB | x :: _ => float_dropout (float_rate p) x end
  | Conv => match inputs with [] => UB | [x] => conv_forward fops (float_kernels p) (filter_count v) (depth v) x | _ => Throw end
  | Normalize => float_normalization inputs
  end.
(** The layers of a vertex, one after the other, as in [chain_forward] of the exact model. *)
Fixpoint float_chain (ls : list layer) (inputs : list FT) : outcome FT :=
  match ls with
  | [] => match inputs with [x] => Ok x | _ => UB end
  | l :: ls => do y <- float_layer_forward l inputs; float_chain ls [y]
  end.
Definition float_vertex_forward (inputs : list FT) : outcome FT := float_chain (layers_of v) inputs.
End Vertex.
(** A prediction: the walk of [Graph_Model] with these vertices. *)
Definition float_forward_at (d : dsl) (ps : nat -> float_params) (id : nat) (inputs : list FT) : outcome FT :=
  do v <- ModelFile_Model.vertex_at d id; float_vertex_forward v (ps id) inputs.
Definition float_predict (d : dsl) (g : graph) (ps : nat -> float_params) (fuel : nat) (given : list FT) : outcome (list FT) :=
  snd (predict g (float_forward_at d ps) fuel given fresh).
End Activations.
