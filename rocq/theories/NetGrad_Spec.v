(** Vocabulary for C104: the cost of a network on a batch, as a function of its parameters. *)
From Coq Require Import List Arith Bool NArith Reals.
From Verif Require Import Outcome Tensor_Model Tensor_Spec Activation_Model Layer_Model Layer_Spec Graph_Model Net_Model Net_Spec.
From Verif Require ModelFile_Model Loss_Model.
Import ListNotations.
Local Open Scope R_scope.

(** The element at a position, 0 where there is none. *)
Definition entry (t : T) (r c k : nat) : R := match get t r c k with Ok x => x | _ => 0 end.

(** For each loss of the library, the number per element that its errors are the derivative of, and the values of
    the prediction for which they are. *)
Definition costs : list (Loss_Model.loss * (R -> R -> R) * (R -> Prop)) :=
  [ (Loss_Model.mse, fun t y => (y - t) ^ 2, fun _ => True);
    (Loss_Model.smae, fun t y => (y - t) ^ 2 / 2, fun _ => True);
    (Loss_Model.cce, fun t y => (y - t) ^ 2 / 2, fun _ => True);
    (Loss_Model.bce, fun t y => - (t * ln y + (1 - t) * ln (1 - y)), fun y => 0 < y < 1);
    (Loss_Model.mae, fun t y => - (y - t) ^ 2 / 2, fun _ => True) ].

(** Sum of [q] over the elements of two tensors, and over the outputs. *)
Definition sum_of (q : R -> R -> R) (t y : T) : R := Sum rops (chans y) (fun k => Sum rops (rows y) (fun r => Sum rops (cols y) (fun c => q (entry t r c k) (entry y r c k)))).
Definition record_cost (d : dsl) (g : graph) (fuel : nat) (q : R -> R -> R) (ps : nat -> params) (r : example) : R :=
  match snd (predict g (forward_at d ps (random r) true) fuel (given r) fresh) with
  | Ok ys => total (fun ty => sum_of q (fst ty) (snd ty)) (combine (truth r) ys)
  | _ => 0
  end.
(** Sum over the vertices. *)
Definition over_vertices (d : dsl) (f : nat -> vertex -> R) : R :=
  total (fun id => match ModelFile_Model.vertex_at d id with Ok v => f id v | _ => 0 end) (seq 1 (length (ModelFile_Model.vertices d))).
Definition is_full (v : vertex) : bool := ModelFile_Model.layer_eqb (ModelFile_Model.node_type v) ModelFile_Model.full.
Definition over (s : shape) (f g : nat -> nat -> nat -> R) : R := let '(r, c, k) := s in dot r c k f g.
Definition weights_shape (v : vertex) : shape := (volume (input_shape v), volume (output_shape v), 1%nat).
(** Half the squares of the weights, times the strength of the regularization. *)
Definition configured_strength (v : vertex) : R := if ModelFile_Model.use_l2_regularization v then ModelFile_Model.regularization_strength v else 0.
Definition penalty (d : dsl) (ps : nat -> params) : R :=
  over_vertices d (fun id v => if is_full v then configured_strength v / 2 * over (weights_shape v) (entry (weights (ps id))) (entry (weights (ps id))) else 0).
(** The mean over the records of the batch, and the penalty. *)
Definition batch_cost (d : dsl) (g : graph) (fuel : nat) (q : R -> R -> R) (rs : list example) (ps : nat -> params) : R :=
  total (record_cost d g fuel q ps) rs / INR (length rs) + penalty d ps.

(** The parameters moved by [s] in a direction. *)
Definition along (s : R) (t : T) (u : nat -> nat -> nat -> R) : T :=
  {| rows := rows t; cols := cols t; chans := chans t; get := fun r c k => do x <- get t r c k; Ok (x + s * u r c k) |}.
Definition moved (ps : nat -> params) (dw db : nat -> nat -> nat -> nat -> R) (s : R) (id : nat) : params :=
  {| weights := along s (weights (ps id)) (dw id); kernels := kernels (ps id); biases := along s (biases (ps id)) (db id) |}.
(** How far the parameters went from [ps] to [ps'], measured in a direction. *)
Definition way (d : dsl) (ps ps' : nat -> params) (dw db : nat -> nat -> nat -> nat -> R) : R :=
  over_vertices d (fun id v =>
    (if is_full v then over (weights_shape v) (fun i j k => entry (weights (ps' id)) i j k - entry (weights (ps id)) i j k) (dw id) else 0) +
    (if ModelFile_Model.use_bias v then over (output_shape v) (fun i j k => entry (biases (ps' id)) i j k - entry (biases (ps id)) i j k) (db id) else 0)).

(** Vertices whose layers have the derivatives they use. *)
Definition plain (v : vertex) : Prop :=
  ModelFile_Model.node_type v <> ModelFile_Model.normalize /\ ModelFile_Model.node_type v <> ModelFile_Model.convolution2dValid /\
  ModelFile_Model.use_normalization v = false /\ ModelFile_Model.use_norm_clipping v = false /\
  (ModelFile_Model.node_type v = ModelFile_Model.full -> ModelFile_Model.activation_type v <> ModelFile_Model.softmax /\ ModelFile_Model.activation_type v <> ModelFile_Model.sigmoidApprox).
(** No element that arrives at a (leaky) rectifier is 0, where it has no derivative. *)
Definition kinked (v : vertex) : Prop := ModelFile_Model.activation_type v = ModelFile_Model.relu \/ ModelFile_Model.activation_type v = ModelFile_Model.leaky.
Definition off_kinks (v : vertex) (p : params) (random : nat -> nat -> nat -> R) (xs : list T) : Prop :=
  kinked v -> forall before after seen z, layers_of v = before ++ Activate :: after -> chain_forward v p random true before xs = Ok (seen, z) ->
  forall r c k, in_range z r c k -> entry z r c k <> 0.
Definition record_off_kinks (d : dsl) (g : graph) (ps : nat -> params) (r : example) : Prop :=
  forall id v xs, ModelFile_Model.vertex_at d id = Ok v -> inputs_of d g ps (random r) (S id) (given r) id = Ok xs -> off_kinks v (ps id) (random r id) xs.
Definition predicts_inside (d : dsl) (g : graph) (fuel : nat) (inside : R -> Prop) (ps : nat -> params) (r : example) : Prop :=
  forall ys y, snd (predict g (forward_at d ps (random r) true) fuel (given r) fresh) = Ok ys -> In y ys -> forall i j k, in_range y i j k -> inside (entry y i j k).

(** What the theorems ask of the parameters and the records of the batch. *)
Definition ready (d : dsl) (g : graph) (sh : nat -> shape) (fuel : nat) (inside : R -> Prop) (ps : nat -> params) (rs : list example) : Prop :=
  all_fit d ps /\ rs <> [] /\ Forall (fun r => given_fit d (given r) /\ outputs_fit g sh (truth r)) rs /\
  Forall (record_off_kinks d g ps) rs /\ Forall (predicts_inside d g fuel inside ps) rs.
(** The same weights and biases. *)
Definition stays (d : dsl) (ps ps' : nat -> params) : Prop := forall id v, ModelFile_Model.vertex_at d id = Ok v ->
  (ModelFile_Model.node_type v = ModelFile_Model.full -> forall i j k, in_range (weights (ps id)) i j k -> entry (weights (ps' id)) i j k = entry (weights (ps id)) i j k) /\
  (ModelFile_Model.use_bias v = true -> forall i j k, in_range (biases (ps id)) i j k -> entry (biases (ps' id)) i j k = entry (biases (ps id)) i j k).
(** The direction of one weight or one bias. *)
Definition only (id i j k : nat) : nat -> nat -> nat -> nat -> R := fun id' i' j' k' => if Nat.eqb id' id && Nat.eqb i' i && Nat.eqb j' j && Nat.eqb k' k then 1 else 0.
Definition none : nat -> nat -> nat -> nat -> R := fun _ _ _ _ => 0.
(** src/ml/optimizers/mbgd_optimizer.hpp:53-71: plain gradient descent has a learning rate for the weights and one for the biases. *)
Definition gradient_descent (rate bias_rate : R) : nat -> layer -> T -> T -> outcome T := fun _ l => descend (match l with Bias => bias_rate | _ => rate end).
(** The cost does not count the weights. *)
Definition unregularized (d : dsl) : Prop := forall id v, ModelFile_Model.vertex_at d id = Ok v -> ModelFile_Model.use_l2_regularization v = false.
