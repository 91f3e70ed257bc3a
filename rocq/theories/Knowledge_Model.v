(** Model of saving and loading the weights of a network: src/ml/neural_network.hpp [saveKnowledge], [loadKnowledge].

    Simplifications, for every definition in this file: a file of a folder is a tensor with a name; a saved tensor is loaded with
    the values it had (see the models of the tensor files and of the tensors of fewer bits); writing does not fail. *)
From Coq Require Import Ascii String List Arith Bool NArith Reals.
From Verif Require Import Outcome Chars Tensor_Model Layer_Model Graph_Model Net_Model.
From Verif Require ModelFile_Model.
Import ListNotations.
Local Open Scope nat_scope.

(** The files of a folder. *)
Notation folder := (str -> option T) (only parsing).
Definition write (s : folder) (name : str) (t : T) : folder := fun n => if list_eq_dec ascii_dec n name then Some t else s n.
(** src/types/tensor_impls/full_tensor.hpp:119-129: a file that is not there does not throw, and the numbers that are then used
    were never read. *)
Definition read (s : folder) (name : str) : outcome T := match s name with Some t => Ok t | None => UB end.

(** src/ml/happyml_dsl.hpp:425, 465, 482 with [saveKnowledge] of src/ml/layers/fully_connected_layer.hpp:39-42, bias_layer.hpp:33-36 and
    convolution_2d_valid_layer.hpp:37-43 *)
Definition full_name (id : nat) : str := ModelFile_Model.asString_id id ++ lit "_full.tensor".
Definition filter_name (id i : nat) : str := ModelFile_Model.asString_id id ++ lit "_c2dv_" ++ ModelFile_Model.asString_id i ++ lit ".tensor".
Definition bias_name (id : nat) : str := ModelFile_Model.asString_id id ++ lit "_bias.tensor".

Definition filter_ids (v : vertex) : list nat := seq 0 (N.to_nat (ModelFile_Model.filters v)).
(** What the layers of a vertex write. *)
Definition written (id : nat) (v : vertex) (p : params) : outcome (list (str * T)) :=
  do ws <- (match ModelFile_Model.node_type v with
            | ModelFile_Model.full => Ok [(full_name id, weights p)]
            | ModelFile_Model.convolution2dValid => omapM (fun i => do w <- vec_at (kernels p) i; Ok (filter_name id i, w)) (filter_ids v)
            | _ => Ok []
            end);
  Ok (ws ++ (if ModelFile_Model.use_bias v then [(bias_name id, biases p)] else [])).
(** [loadKnowledge] of the same layers. *)
Definition loaded (id : nat) (v : vertex) (s : folder) (p : params) : outcome params :=
  do p <- (match ModelFile_Model.node_type v with
           | ModelFile_Model.full => do w <- read s (full_name id); Ok {| weights := w; kernels := kernels p; biases := biases p |}
           | ModelFile_Model.convolution2dValid =>
               do ks <- omapM (fun i => read s (filter_name id i)) (filter_ids v); Ok {| weights := weights p; kernels := ks; biases := biases p |}
           | _ => Ok p
           end);
  if ModelFile_Model.use_bias v then do b <- read s (bias_name id); Ok {| weights := weights p; kernels := kernels p; biases := b |} else Ok p.

(** src/ml/neural_network.hpp:257-263, 280-286: the walk over the network is that of the model of the walk; [calls] are the
    vertices it comes to. *)
Fixpoint save_all (d : dsl) (ps : nat -> params) (calls : list nat) (s : folder) : outcome folder :=
  match calls with
  | [] => Ok s
  | id :: calls => do v <- ModelFile_Model.vertex_at d id; do l <- written id v (ps id); save_all d ps calls (fold_left (fun s f => write s (fst f) (snd f)) l s)
  end.
Fixpoint load_all (d : dsl) (s : folder) (calls : list nat) (ps : nat -> params) : outcome (nat -> params) :=
  match calls with
  | [] => Ok ps
  | id :: calls => do v <- ModelFile_Model.vertex_at d id; do p <- loaded id v s (ps id); load_all d s calls (set_at ps id p)
  end.
Definition save_network (d : dsl) (b : building) (fuel : nat) (flags : nat -> bool) (ps : nat -> params) (s : folder) : outcome folder :=
  save_all d ps (snd (act (network d b) fuel Save flags)) s.
Definition load_network (d : dsl) (b : building) (fuel : nat) (flags : nat -> bool) (s : folder) (ps : nat -> params) : outcome (nat -> params) :=
  load_all d s (snd (act (network d b) fuel Load flags)) ps.
