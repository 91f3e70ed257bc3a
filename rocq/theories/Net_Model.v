(** Model of what the layers of a network do with tensors, from its description: src/ml/happyml_dsl.hpp with
    src/ml/neural_network_node.hpp.

    Simplifications, for every definition in this file: those of the models of the layers (exact real
    arithmetic, tensors of 32 bits, no overflow of sizes); the nodes of one vertex, which form a chain, are one node
    of the network; materializing a tensor, which changes no element, is left out; a training pass is one record, so
    that the queues of the layers hold the tensors of this record only. *)
From Coq Require Import List Arith Bool NArith Reals.
From Verif Require Import Outcome Tensor_Model Reduce_Model Activation_Model Layer_Model ConvLayer_Model Graph_Model.
From Verif Require Loss_Model.
From Verif Require ModelFile_Model.
Import ListNotations.
Local Open Scope nat_scope.

Notation vertex := ModelFile_Model.vertex.
Notation dsl := ModelFile_Model.dsl.
Notation building := ModelFile_Model.building.

Definition nat_shape (s : ModelFile_Model.shape) : shape := let '(r, c, k) := s in (N.to_nat r, N.to_nat c, N.to_nat k).
Definition input_shape (v : vertex) : shape := nat_shape (hd (0, 0, 0)%N (ModelFile_Model.inputShapes v)).
Definition output_shape (v : vertex) : shape := nat_shape (ModelFile_Model.outputShape v).
Definition volume (s : shape) : nat := let '(r, c, k) := s in r * c * k.

(** src/ml/happyml_dsl.hpp:529-562 *)
Definition activation_of (a : ModelFile_Model.activation) : activation :=
  match a with
  | ModelFile_Model.relu => Relu | ModelFile_Model.tanhDefault => Tanh | ModelFile_Model.sigmoid => Sigmoid | ModelFile_Model.leaky => Leaky
  | ModelFile_Model.softmax => Softmax | ModelFile_Model.sigmoidApprox => SigmoidApprox | ModelFile_Model.tanhApprox => TanhApprox | ModelFile_Model.linear => Linear
  end.

(** The weights of the layers of a vertex. *)
Record params := { weights : T; kernels : list T; biases : T }.

(** src/ml/happyml_dsl.hpp:416-515: the layers made for a vertex, in order. *)
Inductive layer := Flatten | Full | Concat | Normalize | Dropout | Conv | Bias | Activate.
Definition layers_of (v : vertex) : list layer :=
  let flat := if 1 <? fst (fst (input_shape v)) then [Flatten] else [] in
  match ModelFile_Model.node_type v with
  | ModelFile_Model.full => flat ++ [Full]
  | ModelFile_Model.concatenate => [Concat]
  | ModelFile_Model.flatten => [Flatten]
  | ModelFile_Model.normalize => [Normalize]
  | ModelFile_Model.dropout => flat ++ [Dropout]
  | ModelFile_Model.convolution2dValid => [Conv]
  end
  ++ (if ModelFile_Model.use_bias v then [Bias] else [])
  ++ (if ModelFile_Model.use_normalization v then [Normalize] else [])
  ++ (if ModelFile_Model.weighted (ModelFile_Model.node_type v) then [Activate] else []).

Section Vertex.
Context (v : vertex) (p : params) (random : nat -> nat -> nat -> R).
Definition strength : option R := if ModelFile_Model.use_l2_regularization v then Some (ModelFile_Model.regularization_strength v) else None.
Definition depth : nat := snd (input_shape v).
Definition filter_count : nat := N.to_nat (ModelFile_Model.filters v).
Definition new_fc : fc := {| fc_weights := weights p; lastInputs := []; weights_errors := []; l2 := strength |}.
Definition new_bias : bias := {| bias_values := biases p; bias_errors := [] |}.

(** [forward] of each layer: see the models of the layers.  [DropoutLayer] looks at the first tensor only
    (src/ml/layers/dropout_layer.hpp:24-39), [ActivationLayer] wants exactly one
    (src/ml/layers/activation_layer.hpp:17-28). *)
Definition layer_forward (training : bool) (l : layer) (inputs : list T) : outcome T :=
  match l with
  | Flatten => do r <- flatten_forward inputs; Ok (fst r)
  | Full => do r <- fc_forward new_fc inputs training; Ok (snd r)
  | Concat => concat_forward inputs
  | Normalize => do r <- normalization_forward inputs; Ok (fst r)
  | Dropout => match inputs with
               | [] => UB
               | x :: _ => if training then do r <- dropout_train (ModelFile_Model.dropout_rate v) random x; Ok (fst r)
                           else dropout_predict (1 / (1 - ModelFile_Model.dropout_rate v))%R x
               end
  | Conv => match inputs with [] => UB | [x] => conv_forward rops (kernels p) filter_count depth x | _ => Throw end
  | Bias => bias_forward new_bias inputs
  | Activate => match inputs with [x] => activate (activation_of (ModelFile_Model.activation_type v)) x | _ => Throw end
  end.

(** [backward] of each layer after a training pass with [inputs]: the errors sent back, and the errors kept
    for the next update of the weights and of the bias. *)
Definition layer_backward (l : layer) (inputs : list T) (e : T) : outcome (list T * (list T * list T)) :=
  match l with
  | Flatten => do r <- flatten_forward inputs; do x <- flatten_backward (snd r) e; Ok ([x], ([], []))
  | Full => do a <- fc_forward new_fc inputs true; do b <- fc_backward (fst a) e; Ok ([snd b], (weights_errors (fst b), []))
  | Concat => do es <- concat_backward (map nat_shape (ModelFile_Model.inputShapes v)) 0 e; Ok (es, ([], []))
  | Normalize => do r <- normalization_forward inputs; do x <- normalization_backward (Some r) e; Ok ([x], ([], []))
  | Dropout => match inputs with
               | [] => UB
               | x :: _ => do r <- dropout_train (ModelFile_Model.dropout_rate v) random x; do x <- dropout_backward (Some (snd r)) e; Ok ([x], ([], []))
               end
  | Conv => match inputs with
            | [x] => let '(r, c, k) := input_shape v in
                     do b <- conv_backward rops (kernels p) filter_count r c k strength x e; Ok ([fst b], (snd b, []))
            | _ => Throw
            end
  | Bias => let b := bias_backward new_bias e in Ok ([snd b], ([], bias_errors (fst b)))
  | Activate => do x <- activation_backward (activation_of (ModelFile_Model.activation_type v)) inputs e; Ok ([x], ([], []))
  end.

(** src/ml/neural_network_node.hpp:170-184 [clip] for one error; a norm that is not a number is not above
    the threshold. *)
Definition clip (e : T) : outcome T :=
  do n <- euclidean_norm e;
  Ok (match n with
      | Some n => if Rgt_bool n (ModelFile_Model.norm_clipping_threshold v) then scalar_multiply rops e (ModelFile_Model.norm_clipping_threshold v / n)%R else e
      | None => e
      end).
(** src/ml/happyml_dsl.hpp:418-421, 452-455, 475-478: which nodes clip.  The flattening put before a layer does not. *)
Definition clips (l : layer) : bool :=
  ModelFile_Model.use_norm_clipping v &&
  match l with Flatten => ModelFile_Model.layer_eqb (ModelFile_Model.node_type v) ModelFile_Model.flatten | _ => true end.

(** The layers of the vertex one after the other: what each of them got, and what comes out. *)
Fixpoint chain_forward (training : bool) (ls : list layer) (inputs : list T) : outcome (list (list T) * T) :=
  match ls with
  | [] => match inputs with [x] => Ok ([], x) | _ => UB end
  | l :: ls => do y <- layer_forward training l inputs; do r <- chain_forward training ls [y]; Ok (inputs :: fst r, snd r)
  end.
(** src/ml/neural_network_node.hpp:198-222: the way back through the layers; [seen] are the layers with
    what they got. *)
Fixpoint chain_backward (seen : list (layer * list T)) (e : T) : outcome (list T * (list T * list T)) :=
  match seen with
  | [] => Ok ([e], ([], []))
  | (l, inputs) :: seen =>
      do r <- chain_backward seen e;
      match fst r with
      | [e] => do q <- layer_backward l inputs e;
               do es <- (if clips l then omapM clip (fst q) else Ok (fst q));
               Ok (es, (fst (snd q) ++ fst (snd r), snd (snd q) ++ snd (snd r)))
      | _ => Throw
      end
  end.
Definition vertex_forward (training : bool) (inputs : list T) : outcome T :=
  do r <- chain_forward training (layers_of v) inputs; Ok (snd r).
Definition vertex_backward (inputs : list T) (e : T) : outcome (list T * (list T * list T)) :=
  do r <- chain_forward true (layers_of v) inputs; chain_backward (combine (layers_of v) (fst r)) e.

(** src/ml/layers/convolution_2d_valid_layer.hpp:163-178 [apply]; the kernels are changed after each record
    of the batch.  [change] is [calculateWeightsChange] of the optimizer, here the same for all of them. *)
Definition conv_apply (change : T -> T -> outcome T) (changes : list (list T)) : outcome (list T) :=
  fold_left (fun ks gradients => do ks <- ks;
               omapM (fun i => do w <- vec_at ks i; do gradient <- vec_at gradients i; do adjusted <- change w gradient; materialize adjusted) (seq 0 filter_count))
            changes (Ok (kernels p)).
(** [apply] of the layers of the vertex, with the errors kept from the records of the batch. *)
Definition vertex_apply (change : layer -> T -> T -> outcome T) (pending : list (list T * list T)) : outcome params :=
  do b <- (if ModelFile_Model.use_bias v then do b <- bias_apply (change Bias) {| bias_values := biases p; bias_errors := concat (map snd pending) |}; Ok (bias_values b)
           else Ok (biases p));
  match ModelFile_Model.node_type v with
  | ModelFile_Model.full => do w <- fc_apply (change Full) {| fc_weights := weights p; lastInputs := []; weights_errors := concat (map fst pending); l2 := strength |};
                            Ok {| weights := fc_weights w; kernels := kernels p; biases := b |}
  | ModelFile_Model.convolution2dValid => do ks <- conv_apply (change Conv) (map fst pending); Ok {| weights := weights p; kernels := ks; biases := b |}
  | _ => Ok {| weights := weights p; kernels := kernels p; biases := b |}
  end.
End Vertex.

(** src/ml/happyml_dsl.hpp:91-119, 382-527: the network built from a description.  The outputs are
    registered as their vertices are built (line 501). *)
Definition network (d : dsl) (b : building) : graph :=
  {| conns := ModelFile_Model.connections b; heads := ModelFile_Model.inputReceptors d;
     outputs := filter (fun id => match ModelFile_Model.vertex_at d id with Ok v => ModelFile_Model.producesOutput v | _ => false end)
                       (rev (ModelFile_Model.built b)) |}.

(** src/ml/neural_network_node.hpp:246-252: the sum of two errors.  Errors of different shapes would throw; here
    their sum cannot be read. *)
Definition add_errors (a b : T) : T :=
  match add_view rops a b with Ok t => t | _ => {| rows := rows a; cols := cols a; chans := chans a; get := fun _ _ _ => Throw |} end.
(** src/ml/neural_network_node.hpp:258 *)
Definition divide_error (e : T) (n : nat) : T := scalar_divide e (INR n).

Section Network.
Context (d : dsl) (g : graph) (ps : nat -> params) (random : nat -> nat -> nat -> nat -> R).
(** The layers of the network, as the walk over it wants them. *)
Definition forward_at (training : bool) (id : nat) (inputs : list T) : outcome T :=
  do v <- ModelFile_Model.vertex_at d id; vertex_forward v (ps id) (random id) training inputs.
(** The tensors a vertex got in a training pass with [given].  In the code its layers remember them; here they are
    computed again: a pass calls every layer once, with the values of its predecessors (see the model of the walk). *)
Fixpoint inputs_of (fuel : nat) (given : list T) (id : nat) : outcome (list T) :=
  match fuel with
  | O => UB
  | S fuel =>
      match ins g id with
      | [] => omapM (fun hx => Ok (snd hx)) (filter (fun hx => Nat.eqb (fst hx) id) (combine (heads g) given))
      | cs => omapM (fun c => do xs <- inputs_of fuel given (from g c); forward_at true (from g c) xs) cs
      end
  end.
Definition changes_at (fuel : nat) (given : list T) (id : nat) (e : T) : outcome (list T * (list T * list T)) :=
  do v <- ModelFile_Model.vertex_at d id; do xs <- inputs_of fuel given id; vertex_backward v (ps id) (random id) xs e.
Definition backward_at (fuel : nat) (given : list T) (id : nat) (e : T) : outcome (list T) :=
  do r <- changes_at fuel given id e; Ok (fst r).

(** src/ml/neural_network.hpp:463-484: one record.  Gives what each vertex keeps for the next update.  That a loss
    is not a number does not happen with exact numbers. *)
Definition train_record (L : Loss_Model.loss) (fuel : nat) (given truth : list T) : outcome (list (nat * (list T * list T))) :=
  do predicted <- snd (predict g (forward_at true) fuel given fresh);
  do errors <- omapM (fun i => do t <- vec_at truth i; do y <- vec_at predicted i; Loss_Model.derivative_of L t y) (seq 0 (length (outputs g)));
  match backward_outputs g (backward_at fuel given) add_errors divide_error fuel (combine (outputs g) errors) {| prior_error := fun _ => None; received := [] |} with
  | (st, Fine) => omapM (fun ve => do r <- changes_at fuel given (fst ve) (snd ve); Ok (fst ve, snd r)) (received st)
  | _ => Throw
  end.
End Network.

(** A record of a batch, with the random numbers its training pass uses. *)
Record example := { given : list T; truth : list T; random : nat -> nat -> nat -> nat -> R }.
Section Training.
Context (d : dsl) (g : graph) (L : Loss_Model.loss) (fuel : nat).
(** src/ml/neural_network.hpp:459-494: the records of one batch, then the update of the weights: [apply] of the
    outputs walks over the network (src/ml/neural_network_node.hpp:186-194). *)
Fixpoint train_records (ps : nat -> params) (rs : list example) : outcome (list (nat * (list T * list T))) :=
  match rs with
  | [] => Ok []
  | r :: rs => do a <- train_record d g ps (random r) L fuel (given r) (truth r); do b <- train_records ps rs; Ok (a ++ b)
  end.
Definition kept_for (id : nat) (l : list (nat * (list T * list T))) : list (list T * list T) := map snd (filter (fun x => Nat.eqb (fst x) id) l).
Fixpoint update_all (change : nat -> layer -> T -> T -> outcome T) (calls : list nat) (ps : nat -> params) (pending : nat -> list (list T * list T)) : outcome (nat -> params) :=
  match calls with
  | [] => Ok ps
  | id :: calls =>
      do v <- ModelFile_Model.vertex_at d id;
      do p <- vertex_apply v (ps id) (change id) (pending id);
      update_all change calls (set_at ps id p) (set_at pending id [])
  end.
Definition train_batch (change : nat -> layer -> T -> T -> outcome T) (ps : nat -> params) (rs : list example) : outcome (nat -> params) :=
  do l <- train_records ps rs; update_all change (flat_map (apply_calls g fuel) (outputs g)) ps (fun id => kept_for id l).
(** Any number of batches, each with the optimizer as it is then. *)
Fixpoint train (batches : list ((nat -> layer -> T -> T -> outcome T) * list example)) (ps : nat -> params) : outcome (nat -> params) :=
  match batches with [] => Ok ps | (change, rs) :: batches => do ps <- train_batch change ps rs; train batches ps end.
End Training.
