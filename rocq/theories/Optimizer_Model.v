(** Model of the optimizers, over the real numbers.

    A tensor is the function from positions to elements; all tensors used with one registration id have
    the same shape, so the element-wise views never fail.  Rounding is not modelled, and the constants
    are the decimal numbers in the source.  Materializing a tensor does not change it. *)
From Coq Require Import List Arith Reals Bool.
Import ListNotations.
Local Open Scope R_scope.

Notation tensor := (nat -> R).
Notation tensors := (list (nat * (nat -> R))).
(** [unordered_map]: its entries, one per key. *)
Fixpoint find (id : nat) (l : tensors) : option tensor :=
  match l with [] => None | (k, t) :: r => if Nat.eqb k id then Some t else find id r end.
Fixpoint put (id : nat) (x : tensor) (l : tensors) : tensors :=
  match l with [] => [(id, x)] | (k, t) :: r => if Nat.eqb k id then (k, x) :: r else (k, t) :: put id x r end.
Definition zero : tensor := fun _ => 0.
(** The tensors of zeros for an id that is used for the first time. *)
Definition initialized (id : nat) (l : tensors) : tensors := match find id l with Some _ => l | None => put id zero l end.
(** [operator[]] for an id that is there. *)
Definition get (id : nat) (l : tensors) : tensor := match find id l with Some t => t | None => zero end.

Inductive kind := Sgd | Sgdm (decay : bool) | Adam (decay : bool).
(** What an optimizer keeps for the weights, and another one for the biases: the first and second moments (only
    the first for momentum), the learning rate, and when it was last adjusted. *)
Record side := { m : tensors; v : tensors; rate : R; last : nat }.
(** src/ml/optimizer.hpp:75-78 with src/ml/optimizers/adam_optimizer.hpp:88-97 *)
Record state := { next_id : nat; time_step : nat; weights : side; biases : side }.
Definition start (rate bias_rate : R) : state :=
  {| next_id := 0; time_step := 0; weights := {| m := []; v := []; rate := rate; last := 1 |}; biases := {| m := []; v := []; rate := bias_rate; last := 1 |} |}.

(** src/ml/optimizers/adam_optimizer.hpp:38-46, sgdm_optimizer.hpp:29-37, mbgd_optimizer.hpp:45-51:
    [registerForWeightChanges] and [registerForBiasChanges] *)
Definition register (k : kind) (st : state) : state * nat :=
  match k with
  | Sgd => (st, 0%nat)
  | _ => ({| next_id := S (next_id st); time_step := time_step st; weights := weights st; biases := biases st |}, next_id st)
  end.

Section Demon.
(** [arithmeticMean] of a tensor *)
Context (mean : tensor -> R).
Definition total_mean (l : tensors) : R := fold_left (fun s e => s + mean (snd e)) l 0.
(** src/ml/optimizers/adam_optimizer.hpp:164-174 [average] *)
Definition average_of (l : tensors) : R := total_mean l / INR (length l).
Definition smallest : R := 1 / 100000.
Definition largest : R := 1 / 10.
Definition epsilon : R := 1 / 100000000.
Definition clamp (x : R) : R := Rmin largest (Rmax smallest x).
(** src/ml/optimizers/adam_optimizer.hpp:101-124 and sgdm_optimizer.hpp:105-123
    [calculateDemonAdjustedLearnRate], from the averages of the moments *)
Definition demon (time : nat) (m_average v_average : R) : R :=
  let m_hat := m_average * clamp (1 / (1 - (9 / 10) ^ time)) in
  let v_hat := v_average * (1 / (1 - (999 / 1000) ^ time)) in
  clamp (m_hat / (sqrt v_hat + epsilon)).

(** src/ml/optimizers/sgdm_optimizer.hpp:39-65 and 67-92: the parameters after a change, and what is kept. *)
Definition sgdm_change (decay : bool) (time : nat) (s : side) (id : nat) (params gradient : tensor) : side * tensor :=
  let m0 := initialized id (m s) in
  let momentum := fun i => get id m0 i * (9 / 10) + gradient i * rate s in
  let m1 := put id momentum m0 in
  let adjust := decay && (last s <? time)%nat in
  ({| m := m1; v := v s; rate := if adjust then demon time (average_of m1) (average_of m1 * average_of m1) else rate s; last := if adjust then time else last s |},
   fun i => params i - momentum i).
(** src/types/tensor_views/element_wise_inverse_tensor_view.hpp:14-24: the view adds its own 1e-8 before it divides. *)
Definition inverse (x : R) : R := 1 / (x + epsilon).
(** src/ml/optimizers/adam_optimizer.hpp:48-67, 69-87 and 126-162 *)
Definition adam_change (decay : bool) (time : nat) (s : side) (id : nat) (params gradient : tensor) : side * tensor :=
  let m0 := match find id (m s) with Some _ => m s | None => put id zero (m s) end in
  let v0 := match find id (m s) with Some _ => v s | None => put id zero (v s) end in
  let adjust := decay && (last s <? time)%nat in
  let lr := if adjust then demon time (average_of m0) (average_of v0) else rate s in
  let m_hat := fun i => get id m0 i * (9 / 10) + gradient i * (1 - 9 / 10) in
  let v_hat := fun i => get id v0 i * (999 / 1000) + gradient i ^ 2 * (1 - 999 / 1000) in
  ({| m := put id m_hat m0; v := put id v_hat v0; rate := lr; last := if adjust then time else last s |},
   fun i => params i + m_hat i * - lr * inverse (sqrt (v_hat i) + epsilon)).
(** src/ml/optimizers/mbgd_optimizer.hpp:53-71 *)
Definition sgd_change (s : side) (params gradient : tensor) : side * tensor := (s, fun i => params i - gradient i * rate s).
Definition change_side (k : kind) (time : nat) (s : side) (id : nat) (params gradient : tensor) : side * tensor :=
  match k with
  | Sgd => sgd_change s params gradient
  | Sgdm decay => sgdm_change decay time s id params gradient
  | Adam decay => adam_change decay time s id params gradient
  end.
(** [calculateWeightsChange] and [calculateBiasChange] *)
Definition change_weights (k : kind) (st : state) (id : nat) (params gradient : tensor) : state * tensor :=
  let '(s, p) := change_side k (time_step st) (weights st) id params gradient in
  ({| next_id := next_id st; time_step := time_step st; weights := s; biases := biases st |}, p).
Definition change_bias (k : kind) (st : state) (id : nat) (params gradient : tensor) : state * tensor :=
  let '(s, p) := change_side k (time_step st) (biases st) id params gradient in
  ({| next_id := next_id st; time_step := time_step st; weights := weights st; biases := s |}, p).

(** What is done to an optimizer: an id is asked for, a layer's weights or bias are changed, an epoch
    begins (src/ml/optimizer.hpp:71-73). *)
Inductive event := Register | Weights (id : nat) (params gradient : tensor) | Bias (id : nat) (params gradient : tensor) | Epoch.
Definition step (k : kind) (st : state) (e : event) : state :=
  match e with
  | Register => fst (register k st)
  | Weights id p g => fst (change_weights k st id p g)
  | Bias id p g => fst (change_bias k st id p g)
  | Epoch => {| next_id := next_id st; time_step := S (time_step st); weights := weights st; biases := biases st |}
  end.
Definition run (k : kind) (st : state) (events : list event) : state := fold_left (step k) events st.

(** src/ml/layers/convolution_2d_valid_layer.hpp:163-178 [apply]: the changes of one record are made
    filter by filter, all with the layer's id. *)
Fixpoint change_filters (k : kind) (st : state) (id : nat) (filters gradients : list tensor) : state * list tensor :=
  match filters, gradients with
  | w :: ws, g :: gs => let '(st, w) := change_weights k st id w g in let '(st, ws) := change_filters k st id ws gs in (st, w :: ws)
  | _, _ => (st, filters)
  end.
Fixpoint convolution_apply (k : kind) (st : state) (id : nat) (filters : list tensor) (queue : list (list tensor)) : state * list tensor :=
  match queue with
  | [] => (st, filters)
  | gradients :: queue => let '(st, filters) := change_filters k st id filters gradients in convolution_apply k st id filters queue
  end.
End Demon.
