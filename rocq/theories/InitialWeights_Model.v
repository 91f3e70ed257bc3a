(** Model of the tensors that weights start from (src/types/tensor_impls/tensor_from_random.hpp and
    tensor_from_xavier.hpp) and of their seeds.

    Simplifications, for every definition in this file: sizes and positions are natural numbers without overflow
    (the sum of rows and columns stays below 2^64); [float] and [double] are real numbers and every operation is
    rounded by [r32] or [r64], so that overflow is not modelled (no value comes near it); operations are not fused. *)
From Coq Require Import Reals ZArith NArith List Bool.
From Flocq Require Import Core.
Import ListNotations.
Local Open Scope R_scope.

(** The roundings of [float] and [double]. *)
Definition float_round (x : R) : R := round radix2 (FLT_exp (-149) 24) ZnearestE x.
Definition double_round (x : R) : R := round radix2 (FLT_exp (-1074) 53) ZnearestE x.

Definition real (n : N) : R := IZR (Z.of_N n).

Section Arithmetic.
Context (r32 r64 : R -> R).

(** The members of both classes. *)
Record random := { rows : N; cols : N; channels : N; min_value : R; max_value : R; range : R; range_const : R; seed_const : R; channel_size : R }.

(** [fmod], which is exact; NaN ([None]) for a divisor of 0 *)
Definition fmod (x y : R) : option R :=
  if Req_EM_T y 0 then None else Some (x - y * IZR (Ztrunc (x / y))).

Definition pi : R := r64 (314159265358979323846 / 100000000000000000000).
(** src/types/tensor_impls/tensor_from_random.hpp:32-41 and tensor_from_xavier.hpp:14-26, after the bounds are known. *)
Definition with_bounds (n_rows n_cols n_channels : N) (lo hi : R) (seed : N) : random :=
  let range := Rabs (r32 (hi - lo)) in
  let range_const := r64 (range / r64 (271828 / 100000)) in
  {| rows := n_rows; cols := n_cols; channels := n_channels;
     min_value := lo; max_value := hi; range := range; range_const := range_const;
     seed_const := r64 (r64 (r64 (real (seed mod 12345689 + 1)) * range_const) / pi);
     channel_size := r64 (r64 (real n_rows) * r64 (real n_cols)) |}.
(** src/types/tensor_impls/tensor_from_random.hpp:31-42; the range is that of the ordered bounds, which has the same size. *)
Definition TensorFromRandom (n_rows n_cols n_channels : N) (min_value max_value : R) (seed : N) : random :=
  with_bounds n_rows n_cols n_channels (Rmin min_value max_value) (Rmax max_value min_value) seed.
(** src/types/tensor_impls/tensor_from_xavier.hpp:20-21 *)
Definition variance (n_rows n_cols : N) : R := r32 (r32 (sqrt (r32 (2 / r32 (real (n_rows + n_cols))))) / 2).
(** src/types/tensor_impls/tensor_from_xavier.hpp:13-27 *)
Definition TensorFromXavier (n_rows n_cols n_channels : N) (seed : N) : random :=
  let variance := variance n_rows n_cols in
  with_bounds n_rows n_cols n_channels (- variance) variance seed.

(** src/types/tensor_impls/tensor_from_random.hpp:78-84, tensor_from_xavier.hpp:51-55 *)
Definition getValue (t : random) (row column channel : N) : option R :=
  let offset :=
    r64 (r64 (r64 (r64 (r64 (r64 (real channel) * channel_size t) + r64 (r64 (real row) * r64 (real (cols t))))
                   + r64 (r64 (r64 (real column) + 1) * range_const t))
              + seed_const t) * pi) in
  option_map (fun m => r32 (r64 (max_value t - m))) (fmod offset (range t)).

(** A layer with weights: src/ml/happyml_dsl.hpp:418-435 and 464-470; [bias] is [use_bias]. *)
Inductive weight_layer :=
| Full (inputs outputs : N) (bias : bool)
| Convolution (kernel_size input_channels filters : N) (bias : bool).
(** [sgd], or one of the four others *)
Inductive optimizer := Sgd | WithMomentum.

(** src/ml/optimizers/mbgd_optimizer.hpp:45-51: always 0.
    src/ml/optimizers/sgdm_optimizer.hpp:29-37 and adam_optimizer.hpp:38-46: the next number. *)
Definition register (o : optimizer) (next_id : N) : N * N :=
  match o with Sgd => (0%N, next_id) | WithMomentum => (next_id, (next_id + 1)%N) end.

(** A seed is of type [uint32_t] (src/types/tensor_impls/tensor_from_xavier.hpp:13). *)
Definition seed_of (n : N) : N := (n mod 2 ^ 32)%N.
(** src/ml/layers/fully_connected_layer.hpp:25 and convolution_2d_valid_layer.hpp:32-34 *)
Definition layer_weights (l : weight_layer) (id : N) : list random :=
  match l with
  | Full i o _ => [TensorFromXavier i o 1 (seed_of (id + 42))]
  | Convolution k c f _ => map (fun n => TensorFromXavier k k c (seed_of (id + N.of_nat n + 42))) (seq 0 (N.to_nat f))
  end.
Definition has_bias (l : weight_layer) : bool := match l with Full _ _ b => b | Convolution _ _ _ b => b end.
(** src/ml/happyml_dsl.hpp:418-491: the layers in the order in which they are built register their weights, and then
    their bias. *)
Fixpoint network_weights (o : optimizer) (next_id : N) (ls : list weight_layer) : list (list random) :=
  match ls with
  | [] => []
  | l :: ls =>
      let '(id, next_id) := register o next_id in
      let next_id := if has_bias l then snd (register o next_id) else next_id in
      layer_weights l id :: network_weights o next_id ls
  end.
End Arithmetic.
