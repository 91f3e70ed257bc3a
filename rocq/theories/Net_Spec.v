(** Vocabulary for C100: which shapes a network can work with. *)
From Coq Require Import List Arith Bool NArith Reals.
From Verif Require Import Outcome Tensor_Model Tensor_Spec Activation_Model Layer_Model Graph_Model Net_Model.
From Verif Require ModelFile_Model ModelFile_Spec.
Import ListNotations.
Local Open Scope nat_scope.

(** [t] has the shape [s], and all its elements can be read. *)
Definition shaped (t : T) (s : shape) : Prop := let '(r, c, k) := s in exists f, is_tensor t r c k f.
Definition shape_eqb (a b : shape) : bool := let '(r, c, k) := a in let '(r', c', k') := b in (r =? r') && (c =? c') && (k =? k').
(** What flattening makes of a shape: tensors of one row stay as they are. *)
Definition flattened (s : shape) : shape := let '(r, c, k) := s in if r =? 1 then s else (1, r * c * k, 1).
(** Full layers and dropout flatten what comes when the declared shape has several rows. *)
Definition entering (v : vertex) (s : shape) : shape := if 1 <? fst (fst (input_shape v)) then flattened s else s.
Definition total_width (ss : list shape) : nat := fold_right (fun s n => snd (fst s) + n) 0 ss.
Definition kernel (v : vertex) : nat := N.to_nat (ModelFile_Model.kernel_size v).
Definition filters_of (v : vertex) : nat := N.to_nat (ModelFile_Model.filters v).

(** The shape a vertex gives for the shapes it gets, if it can work with them. *)
Definition makes (v : vertex) (ss : list shape) : option shape :=
  match ModelFile_Model.node_type v, ss with
  | ModelFile_Model.full, [s] =>
      let '(r, c, k) := entering v s in
      if (c =? volume (input_shape v)) && (k =? 1) then Some (r, volume (output_shape v), 1) else None
  | ModelFile_Model.concatenate, (r, _, k) :: _ :: _ =>
      if forallb (fun '(r', _, k') => (r' =? r) && (k' =? k)) ss then Some (r, total_width ss, k) else None
  | ModelFile_Model.flatten, [s] => Some (flattened s)
  | ModelFile_Model.normalize, [s] => Some s
  | ModelFile_Model.dropout, [s] => Some (entering v s)
  | ModelFile_Model.convolution2dValid, [(r, c, k)] =>
      if (k =? snd (input_shape v)) && (1 <=? k) && (1 <=? filters_of v) && (kernel v <=? r) && (kernel v <=? c)
      then Some (r + 1 - kernel v, c + 1 - kernel v, filters_of v) else None
  | _, _ => None
  end.
(** The bias must have the shape of what it is added to. *)
Definition gives (v : vertex) (ss : list shape) : option shape :=
  match makes v ss with
  | Some s => if ModelFile_Model.use_bias v && negb (shape_eqb s (output_shape v)) then None else Some s
  | None => None
  end.
(** A vertex, which got the shapes [ss], can send errors back; an input of the network ([head]) has nowhere to send
    them to. *)
Definition one_row_or_channel (s : shape) : Prop := let '(r, _, k) := s in r = 1 \/ k = 1.
Definition sends_back (v : vertex) (head : bool) (ss : list shape) : Prop :=
  match ModelFile_Model.node_type v with
  | ModelFile_Model.full | ModelFile_Model.dropout => 1 < fst (fst (input_shape v)) -> Forall one_row_or_channel ss
  | ModelFile_Model.flatten => Forall one_row_or_channel ss
  | ModelFile_Model.normalize => True
  | ModelFile_Model.concatenate => map nat_shape (ModelFile_Model.inputShapes v) = ss /\ Forall (fun s => 0 < snd (fst s)) ss
  | ModelFile_Model.convolution2dValid => ss = [input_shape v] /\ 1 <= kernel v <= 3 /\ (head = true \/ snd (input_shape v) = 1)
  end.

(** The parameters of a vertex have their shapes. *)
Definition fit (v : vertex) (p : params) : Prop :=
  (ModelFile_Model.node_type v = ModelFile_Model.full -> shaped (weights p) (volume (input_shape v), volume (output_shape v), 1)) /\
  (ModelFile_Model.node_type v = ModelFile_Model.convolution2dValid ->
     length (kernels p) = filters_of v /\ Forall (fun w => shaped w (kernel v, kernel v, snd (input_shape v))) (kernels p)) /\
  (ModelFile_Model.use_bias v = true -> shaped (biases p) (output_shape v)).
Definition all_fit (d : dsl) (ps : nat -> params) : Prop := forall id v, ModelFile_Model.vertex_at d id = Ok v -> fit v (ps id).

(** What arrives at a vertex when the vertices have the shapes [sh]: the shapes of those connected to it, in the order of
    the connections; for an input of the network, the declared shape. *)
Definition arriving_shapes (d : dsl) (b : building) (sh : nat -> shape) (id : nat) (v : vertex) : list shape :=
  if ModelFile_Model.acceptsInput v then [input_shape v] else map sh (ModelFile_Spec.arriving id (ModelFile_Model.connections b)).
(** [sh] are the shapes of the network, which fit together. *)
Definition well_shaped (d : dsl) (b : building) (sh : nat -> shape) : Prop :=
  forall id v, ModelFile_Model.vertex_at d id = Ok v -> gives v (arriving_shapes d b sh id v) = Some (sh id).
Definition trainable (d : dsl) (b : building) (sh : nat -> shape) : Prop :=
  forall id v, ModelFile_Model.vertex_at d id = Ok v -> sends_back v (ModelFile_Model.acceptsInput v) (arriving_shapes d b sh id v).
(** The outputs are the vertices that feed no other. *)
Definition outputs_end (d : dsl) : Prop := forall v, In v (ModelFile_Model.vertices d) -> ModelFile_Model.producesOutput v = true -> ModelFile_Model.edges v = [].
Definition ends_are_outputs (d : dsl) : Prop := forall v, In v (ModelFile_Model.vertices d) -> ModelFile_Model.edges v = [] -> ModelFile_Model.producesOutput v = true.
Definition no_sharing (d : dsl) : Prop := forall v, In v (ModelFile_Model.vertices d) -> length (ModelFile_Model.edges v) <= 1.
(** The given tensors have the declared shapes of the inputs, the true ones those of the outputs. *)
Definition given_fit (d : dsl) (xs : list T) : Prop :=
  Forall2 (fun id x => exists v, ModelFile_Model.vertex_at d id = Ok v /\ shaped x (input_shape v)) (ModelFile_Model.inputReceptors d) xs.
Definition outputs_fit (g : graph) (sh : nat -> shape) (ys : list T) : Prop := Forall2 (fun id y => shaped y (sh id)) (outputs g) ys.
(** An optimizer that gives parameters of the same shape. *)
Definition keeps_shape (change : nat -> layer -> T -> T -> outcome T) : Prop :=
  forall id l w gradient s, shaped w s -> shaped gradient s -> exists u, change id l w gradient = Ok u /\ shaped u s.

(** From the vertex, the network forks somewhere on the way to its outputs. *)
Inductive forks (d : dsl) : nat -> Prop :=
| fork_here : forall id v, ModelFile_Model.vertex_at d id = Ok v -> 2 <= length (ModelFile_Model.edges v) -> forks d id
| fork_later : forall id v e, ModelFile_Model.vertex_at d id = Ok v -> In e (ModelFile_Model.edges v) -> forks d e -> forks d id.
(** A vertex that keeps errors for its update in a queue it must not find empty. *)
Definition needs_errors (v : vertex) : Prop := ModelFile_Model.node_type v = ModelFile_Model.full \/ ModelFile_Model.use_bias v = true.
(** A layer that flattens what has several rows and several channels: what comes back cannot be given its shape again. *)
Definition several_rows_and_channels (s : shape) : bool := let '(r, c, k) := s in negb (r =? 1) && (1 <? k) && (0 <? r * c).
Definition clogged (v : vertex) (ss : list shape) : bool :=
  match ModelFile_Model.node_type v with
  | ModelFile_Model.full | ModelFile_Model.dropout => (1 <? fst (fst (input_shape v))) && existsb several_rows_and_channels ss
  | ModelFile_Model.flatten => existsb several_rows_and_channels ss
  | _ => false
  end.

(** The activations by their names, but softmax, which is not computed element by element. *)
Definition formula (a : ModelFile_Model.activation) (x : R) : R :=
  match a with
  | ModelFile_Model.relu => Rmax 0 x
  | ModelFile_Model.leaky => Rmax (leak * x) x
  | ModelFile_Model.sigmoid => exp x / (exp x + 1)
  | ModelFile_Model.sigmoidApprox => (1 + x / (1 + Rabs x)) / 2
  | ModelFile_Model.tanhDefault | ModelFile_Model.tanhApprox => (exp x - exp (- x)) / (exp x + exp (- x))
  | ModelFile_Model.linear | ModelFile_Model.softmax => x
  end%R.
