(** Vocabulary for C101: tasks whose columns a network can work with. *)
From Coq Require Import List Arith NArith.
From Verif Require Import Outcome Tensor_Model ModelFile_Model TaskNet_Model.
From Verif Require Net_Model Net_Spec.
Import ListNotations.
Local Open Scope N_scope.

(** One channel, and not empty. *)
Definition flat_column (c : column) : Prop := let '(h, w, k) := size c in 1 <= h /\ 1 <= w /\ k = 1.
(** A picture, in colour or not, that a kernel of 3 by 3 fits into. *)
Definition big_picture (c : column) : Prop := let '(h, w, k) := size c in picture c = true /\ 3 <= h < 2 ^ 64 /\ 3 <= w < 2 ^ 64 /\ 1 <= k.
(** The given columns: one picture, or one column that is none, or several columns of one channel each. *)
Definition usable (given : list column) : Prop :=
  match given with
  | [] => False
  | [c] => big_picture c \/ picture c = false /\ flat_column c
  | _ => Forall flat_column given /\ total_values (map size given) < 2 ^ 64
  end.
(** A tensor for each column. *)
Definition given_of (given : list column) (xs : list (tensor Rdefinitions.R)) : Prop := Forall2 (fun c x => Net_Spec.shaped x (Net_Model.nat_shape (size c))) given xs.
Definition truth_of (expected : list shape) (ys : list (tensor Rdefinitions.R)) : Prop := Forall2 (fun s y => Net_Spec.shaped y (Net_Model.nat_shape s)) expected ys.
