(** Vocabulary for C109 and C110: a network of [float] numbers, the exact network of the same numbers, and bounds for what flows through them. *)
From Coq Require Import List Arith Bool NArith Reals.
From Flocq Require Import Core IEEE754.BinarySingleNaN IEEE754.Binary IEEE754.Bits.
From Verif Require Import Outcome Tensor_Model Tensor_Spec F32_Model Activation_Model Layer_Model Graph_Model Graph_Spec Net_Model Net_Spec FloatNet_Model FloatNet_Spec.
From Verif Require Reduce_Model Reduce_Spec Scaling_Spec ModelFile_Model ModelFile_Spec.
Import ListNotations.
Local Open Scope R_scope.
Notation F := Reduce_Model.F.

(** The tensor of the numbers the elements of a tensor of [float]s stand for, and the same for the parameters of a vertex. *)
Definition exact (t : FT) : T := {| rows := rows t; cols := cols t; chans := chans t; get := fun r c k => do x <- get t r c k; Ok (number x) |}.
Definition exact_params (p : float_params) : params := {| weights := exact (float_weights p); kernels := map exact (float_kernels p); biases := exact (float_biases p) |}.
(** All elements can be read and are numbers, none larger than [x]. *)
Definition numbers_of (t : FT) (s : shape) : Prop := let '(r, c, k) := s in exists f, numbers t r c k f.
Definition numbers_up_to (x : R) (t : FT) (s : shape) : Prop := let '(r, c, k) := s in exists f, numbers t r c k f /\ forall i j l, (i < r)%nat -> (j < c)%nat -> (l < k)%nat -> Rabs (f i j l) <= x.
Definition float_fit (d : dsl) (ps : nat -> float_params) : Prop := forall id v, ModelFile_Model.vertex_at d id = Ok v ->
  (ModelFile_Model.node_type v = ModelFile_Model.full -> numbers_of (float_weights (ps id)) (volume (input_shape v), volume (output_shape v), 1%nat)) /\
  (ModelFile_Model.node_type v = ModelFile_Model.convolution2dValid ->
     length (float_kernels (ps id)) = filters_of v /\ Forall (fun w => numbers_of w (kernel v, kernel v, snd (input_shape v))) (float_kernels (ps id))) /\
  (ModelFile_Model.node_type v = ModelFile_Model.dropout -> is_number (float_rate (ps id)) /\ number (float_rate (ps id)) = ModelFile_Model.dropout_rate v /\ 0 <= ModelFile_Model.dropout_rate v < 1) /\
  (ModelFile_Model.use_bias v = true -> numbers_of (float_biases (ps id)) (output_shape v)).
Definition float_given (d : dsl) (largest : nat -> R) (xs : list FT) : Prop :=
  Forall2 (fun id x => exists v, ModelFile_Model.vertex_at d id = Ok v /\ numbers_up_to (largest id) x (input_shape v)) (ModelFile_Model.inputReceptors d) xs.

(** How large the exact elements at a place of the network are, and how far the [float] ones are from them. *)
Record bound := { largest : R; error : R }.
Definition near (o : bound) (t : T) (y : FT) : Prop :=
  rows t = rows y /\ cols t = cols y /\ chans t = chans y /\
  forall i j l, (i < rows t)%nat -> (j < cols t)%nat -> (l < chans t)%nat ->
    exists a x, get t i j l = Ok a /\ get y i j l = Ok x /\ is_number x /\ Rabs a <= largest o /\ Rabs (number x - a) <= error o.

(** What a vertex makes: near the exact one; at an output with softmax, it is made of scores that are near the exact scores. *)
Definition uses_softmax (v : vertex) : Prop := ModelFile_Model.weighted (ModelFile_Model.node_type v) = true /\ ModelFile_Model.activation_type v = ModelFile_Model.softmax.
Definition chooses (v : vertex) : Prop := uses_softmax v /\ ModelFile_Model.producesOutput v = true.
Definition near_output (lib : library) (v : vertex) (o : bound) (t : T) (y : FT) : Prop :=
  (chooses v -> exists scores float_scores, near o scores float_scores /\ activate Softmax scores = Ok t /\ float_softmax lib float_scores = Ok y) /\
  (~ chooses v -> near o t y).

(** An activation function in [float] is within [e x] of its formula for numbers up to [x]. *)
Definition faithful (lib : library) (a : ModelFile_Model.activation) (e : R -> R) : Prop :=
  forall t r c k f x, numbers t r c k f -> (forall i j l, (i < r)%nat -> (j < c)%nat -> (l < k)%nat -> Rabs (f i j l) <= x) -> 
    exists y h, float_activate lib a t = Ok y /\ numbers y r c k h /\ forall i j l, (i < r)%nat -> (j < c)%nat -> (l < k)%nat -> Rabs (h i j l - formula a (f i j l)) <= e x.

(** A function of the C library computes the exponential, but for a part [eps] of it, or gives infinity for results too large for [float]. *)
Definition accurate_exp (f : F -> F) (eps : R) : Prop := forall x, is_number x ->
  (is_number (f x) /\ 0 <= number (f x) /\ Rabs (number (f x) - exp (number x)) <= eps * exp (number x) + tiny) \/ (f x = plus_infinity /\ 2 ^ 127 <= exp (number x)).

(** It gives infinity for infinity and 0 for minus infinity, as C requires of implementations with IEEE arithmetic. *)
Definition exp_limits (f : F -> F) : Prop := f plus_infinity = plus_infinity /\ is_number (f minus_infinity) /\ number (f minus_infinity) = 0.
(** A function of the C library computes the hyperbolic tangent, but for [eps]. *)
Definition accurate_tanh (f : F -> F) (eps : R) : Prop := forall x, is_number x ->
  is_number (f x) /\ Rabs (number (f x) - (exp (number x) - exp (- number x)) / (exp (number x) + exp (- number x))) <= eps.

(** By what factor the probabilities of [n] scores up to [x] may be off, with an exponential function that is accurate to [eps]. *)
Definition softmax_factor (n : nat) (eps x : R) : R :=
  exp (2 * (unit_error * (2 * x) + tiny)) * ((1 + eps) / (1 - eps)) / (1 - INR n * tiny) * ((1 + unit_error) / (1 - unit_error) / (1 - double_error) ^ n).
(** Softmax of [n] numbers up to [x] in [float] is within [e x] of the exact one. *)
Definition faithful_softmax (lib : library) (n : nat) (e : R -> R) : Prop :=
  forall t r c k f x, numbers t r c k f -> (0 < n)%nat -> (r * c * k)%nat = n -> (forall i j l, (i < r)%nat -> (j < c)%nat -> (l < k)%nat -> Rabs (f i j l) <= x) -> in_bounds (4 * x) ->
    exists y h, float_softmax lib t = Ok y /\ numbers y r c k h /\
      forall i j l, (i < r)%nat -> (j < c)%nat -> (l < k)%nat -> Rabs (h i j l - exp (f i j l) / Scaling_Spec.sum (map exp (Reduce_Spec.elements r c k f))) <= e x.
(** What the activation function of a vertex that makes tensors of the shape [s] has to be; nothing is asked of softmax at an output. *)
Definition faithful_vertex (lib : library) (e : ModelFile_Model.activation -> R -> R) (v : vertex) (s : shape) : Prop :=
  ModelFile_Model.weighted (ModelFile_Model.node_type v) = true ->
  match ModelFile_Model.activation_type v with
  | ModelFile_Model.softmax => ModelFile_Model.producesOutput v = true \/ faithful_softmax lib (volume s) (e ModelFile_Model.softmax)
  | a => faithful lib a (e a)
  end.

(** The elements of the parameters. *)
Definition at_place (t : FT) (i j l : nat) : R := match get t i j l with Ok x => number x | _ => 0 end.
(** The sizes of the weights into neuron [j], and of those of filter [q], together. *)
Definition all_weights (m : nat) (p : float_params) (j : nat) : R := Sum rops m (fun i => Rabs (at_place (float_weights p) i j 0)).
Definition all_kernel (k depth : nat) (p : float_params) (q : nat) : R :=
  Sum rops depth (fun l => Sum rops k (fun i => Sum rops k (fun j => Rabs (match nth_error (float_kernels p) q with Some w => at_place w i j l | None => 0 end)))).
(** From what arrives at a layer, [is], to what it makes, [o]: with each step the numbers may grow, and so may the errors. *)
Definition within (i o : bound) : Prop := largest i <= largest o /\ error i <= error o.
(** A sum of [m] products with weights of the sizes [weights] together. *)
Definition sum_bounds (m : nat) (weights : R) (i o : bound) : Prop :=
  let s := weights * (largest i + error i) in
  in_bounds (s + sum_error m s) /\ weights * largest i <= largest o /\ weights * error i + sum_error m s <= error o.
Definition bias_bounds (b : R) (i o : bound) : Prop :=
  let s := largest i + error i + Rabs b in
  in_bounds ((1 + unit_error) * s) /\ largest i + Rabs b <= largest o /\ error i + unit_error * s <= error o.
Definition dropout_bounds (rate : R) (i o : bound) : Prop :=
  let scale := / (1 - rate) in let s := scale * (largest i + error i) in
  in_bounds (2 * scale) /\ in_bounds (2 * s) /\ scale * largest i <= largest o /\ scale * error i + 5 * unit_error * s + tiny <= error o.
Definition activation_bounds (e : R -> R) (i o : bound) : Prop := Rmax 1 (largest i) <= largest o /\ error i + e (largest i + error i) <= error o.
Definition softmax_bounds (e : R -> R) (i o : bound) : Prop :=
  in_bounds (4 * (largest i + error i)) /\ 1 <= largest o /\ exp (2 * error i) - 1 + e (largest i + error i) <= error o.
(** Normalization of [n] elements, of which an exact one is of the size [w] or more. *)
Definition normalization_bounds (n : nat) (w : R) (i o : bound) : Prop :=
  let size := largest i + error i in
  let deviation := w / sqrt (8 * INR n) in
  let variance_error := 10 * (size * error i) + 70 * double_error * (INR n * (size * size)) in
  2 <= INR n <= 1048576 /\ size <= 2 ^ 60 /\ / 2 ^ 60 <= deviation /\ variance_error <= deviation * deviation / 8 /\
  4 * sqrt (INR n) <= largest o /\
  (3 * error i + 12 * (unit_error * size) + 3 * (size * (variance_error / (deviation * deviation)))) / deviation <= error o.
(** For a vertex that makes tensors of [n] elements; [w] is the size of an element normalization gets at least. *)
Definition layer_bounds (n : nat) (w : R) (v : vertex) (p : float_params) (e : ModelFile_Model.activation -> R -> R) (l : layer) (o : bound) (i : bound) : Prop :=
  match l with
  | Flatten | Concat => within i o
  | Full => forall j, (j < volume (output_shape v))%nat -> sum_bounds (volume (input_shape v)) (all_weights (volume (input_shape v)) p j) i o
  | Conv => forall q, (q < filters_of v)%nat -> sum_bounds (snd (input_shape v) * (kernel v * kernel v)) (all_kernel (kernel v) (snd (input_shape v)) p q) i o
  | Bias => let '(r, c, k) := output_shape v in forall a j l, (a < r)%nat -> (j < c)%nat -> (l < k)%nat -> bias_bounds (at_place (float_biases p) a j l) i o
  | Dropout => dropout_bounds (ModelFile_Model.dropout_rate v) i o
  | Activate => match ModelFile_Model.activation_type v with ModelFile_Model.softmax => if ModelFile_Model.producesOutput v then within i o else softmax_bounds (e ModelFile_Model.softmax) i o | a => activation_bounds (e a) i o end
  | Normalize => normalization_bounds n w i o
  end.
(** All layers of a vertex, one after the other; what is between them is bounded too. *)
Fixpoint chain_bounds (n : nat) (w : R) (v : vertex) (p : float_params) (e : ModelFile_Model.activation -> R -> R) (ls : list layer) (is : list bound) (o : bound) : Prop :=
  match ls with
  | [] => is = [o]
  | l :: ls => exists between, Forall (layer_bounds n w v p e l between) is /\ chain_bounds n w v p e ls [between] o
  end.
(** What arrives at the vertex [id]. *)
Definition arriving_bounds (b : building) (most : nat -> R) (bs : nat -> bound) (id : nat) (v : vertex) : list bound :=
  if ModelFile_Model.acceptsInput v then [{| largest := most id; error := 0 |}] else map bs (ModelFile_Spec.arriving id (ModelFile_Model.connections b)).
(** [bs] are bounds for all vertices of the network; they make tensors of the shapes [sh], and [least] is the size of an element normalization gets at least. *)
Definition bounds (d : dsl) (b : building) (sh : nat -> shape) (ps : nat -> float_params) (e : ModelFile_Model.activation -> R -> R) (least most : nat -> R) (bs : nat -> bound) : Prop :=
  forall id v, ModelFile_Model.vertex_at d id = Ok v -> chain_bounds (volume (sh id)) (least id) v (ps id) e (layers_of v) (arriving_bounds b most bs id v) (bs id).
(** The tensor has an element of the size [w] or more. *)
Definition has_element (w : R) (t : T) : Prop := exists i j l x, (i < rows t)%nat /\ (j < cols t)%nat /\ (l < chans t)%nat /\ get t i j l = Ok x /\ w <= Rabs x.
(** [xs] is what arrives at the vertex [id] of the exact network. *)
Definition arrives (d : dsl) (b : building) (given : list FT) (value : nat -> T) (id : nat) (v : vertex) (xs : list T) : Prop :=
  if ModelFile_Model.acceptsInput v then exists i x, nth_error (ModelFile_Model.inputReceptors d) i = Some id /\ nth_error given i = Some x /\ xs = [exact x]
  else xs = map value (ModelFile_Spec.arriving id (ModelFile_Model.connections b)).
(** In the exact network, the tensors that are normalized have elements of the sizes [least] or more. *)
Definition normalizes_something (d : dsl) (b : building) (ps : nat -> float_params) (random : nat -> nat -> nat -> nat -> R) (given : list FT) (least : nat -> R) : Prop :=
  forall value, values (network d b) (forward_at d (fun id => exact_params (ps id)) random false) (map exact given) value ->
  forall id v xs before after seen t, ModelFile_Model.vertex_at d id = Ok v -> arrives d b given value id v xs -> layers_of v = before ++ Normalize :: after ->
    chain_forward v (exact_params (ps id)) (random id) false before xs = Ok (seen, t) -> has_element (least id) t.
(** For differences of [gap] and more, an exponential function gives clearly less than 1. *)
Definition resolves (e : F -> F) (gap : F) : Prop := is_number gap /\ 0 < number gap /\ forall z, is_number z -> number z = - number gap -> Reduce_Spec.order (e z) <= 1 - 16 * unit_error.
