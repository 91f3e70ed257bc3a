(** Vocabulary for C105: networks that choose a label, and what their training should lower. *)
From Coq Require Import List Arith Bool NArith Reals.
From Verif Require Import Outcome Tensor_Model Tensor_Spec Activation_Model Layer_Model Layer_Spec Graph_Model Net_Model Net_Spec NetGrad_Spec.
From Verif Require ModelFile_Model Loss_Model.
Import ListNotations.
Local Open Scope R_scope.

(** The only output of the network is a fully connected layer with softmax, from [m] values to [n] labels, without
    normalization, clipping and regularization. *)
Definition classifier (d : dsl) (g : graph) (sh : nat -> shape) (o : nat) (v : vertex) (m n : nat) : Prop :=
  outputs g = [o] /\ ModelFile_Model.vertex_at d o = Ok v /\ ModelFile_Model.node_type v = ModelFile_Model.full /\ ModelFile_Model.activation_type v = ModelFile_Model.softmax /\
  ModelFile_Model.use_normalization v = false /\ ModelFile_Model.use_norm_clipping v = false /\ ModelFile_Model.use_l2_regularization v = false /\
  input_shape v = (1, m, 1)%nat /\ output_shape v = (1, n, 1)%nat /\ sh o = (1, n, 1)%nat.
(** A record whose truth is a distribution over the labels, for instance 1 for one label and 0 for the others. *)
Definition labelled (r : example) : Prop := exists t, truth r = [t] /\ Sum rops (cols t) (fun c => entry t 0 c 0) = 1.
(** The probability of each label in the prediction, and in the truth. *)
Definition predicted (d : dsl) (g : graph) (fuel : nat) (ps : nat -> params) (r : example) (c : nat) : R :=
  match snd (predict g (forward_at d ps (random r) true) fuel (given r) fresh) with Ok [y] => entry y 0 c 0 | _ => 0 end.
Definition wanted (r : example) (c : nat) : R := match truth r with [t] => entry t 0 c 0 | _ => 0 end.
(** The cross entropy between the truth and the prediction. *)
Definition cross_entropy (d : dsl) (g : graph) (fuel : nat) (n : nat) (ps : nat -> params) (r : example) : R := - Sum rops n (fun c => wanted r c * ln (predicted d g fuel ps r c)).
(** The values that arrive at the output layer in a training pass, and the score of a label, of which the softmax is taken: these
    values times the weights of the label, and its bias. *)
Definition arrives (d : dsl) (g : graph) (ps : nat -> params) (r : example) (o : nat) (i : nat) : R := match inputs_of d g ps (random r) (S o) (given r) o with Ok [x] => entry x 0 i 0 | _ => 0 end.
Definition score (d : dsl) (g : graph) (ps : nat -> params) (r : example) (o : nat) (v : vertex) (c : nat) : R :=
  Sum rops (volume (input_shape v)) (fun i => arrives d g ps r o i * entry (weights (ps o)) i c 0) + (if ModelFile_Model.use_bias v then entry (biases (ps o)) 0 c 0 else 0).
(** What the theorems ask of the parameters and the records of the batch. *)
Definition prepared (d : dsl) (g : graph) (sh : nat -> shape) (ps : nat -> params) (rs : list example) : Prop :=
  all_fit d ps /\ rs <> [] /\ Forall (fun r => given_fit d (given r) /\ outputs_fit g sh (truth r) /\ labelled r) rs.
