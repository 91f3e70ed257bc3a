(** Vocabulary for the layers: sums over tensors, and batches. *)
From Coq Require Import List Arith Reals.
From Verif Require Import Outcome Tensor_Model Tensor_Spec Activation_Model Layer_Model.
Import ListNotations.
Local Open Scope R_scope.

(** Sum of the products of the elements of two [n] by [m] by [K] tensors: with [f] an error and [g] what
    a layer gives, the number whose derivative is sent back. *)
Definition dot (n m K : nat) (f g : nat -> nat -> nat -> R) : R :=
  Sum rops K (fun k => Sum rops n (fun r => Sum rops m (fun c => f r c k * g r c k))).
(** Sum of [f x] over a list. *)
Definition total {X} (f : X -> R) (l : list X) : R := fold_right (fun x s => f x + s) 0 l.
Definition strength_of (l : option R) : R := match l with Some s => s | None => 0 end.

(** The records of a batch, forward and backward one after the other; a record is the input of the layer
    and the error that comes back. *)
Fixpoint fc_batch (s : fc) (records : list (T * T)) : outcome fc :=
  match records with
  | [] => Ok s
  | (x, e) :: records => do a <- fc_forward s [x] true; do b <- fc_backward (fst a) e; fc_batch (fst b) records
  end.
Fixpoint bias_batch (s : bias) (errors : list T) : bias :=
  match errors with [] => s | e :: errors => bias_batch (fst (bias_backward s e)) errors end.
(** Several training passes forward, without one backward. *)
Fixpoint fc_forwards (s : fc) (inputs : list T) : outcome fc :=
  match inputs with
  | [] => Ok s
  | x :: inputs => do a <- fc_forward s [x] true; fc_forwards (fst a) inputs
  end.
