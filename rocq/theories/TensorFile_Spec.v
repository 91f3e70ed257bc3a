(** Vocabulary for C24-C26. *)
From Coq Require Import List Bool Arith NArith.
Import ListNotations.
Open Scope N_scope.

(** A tensor of this shape: every channel has [rows] rows, every row [columns] values. *)
Definition box {A} (rows columns channels : nat) (t : list (list (list A))) : Prop :=
  length t = channels /\
  Forall (fun c => length c = rows /\ Forall (fun r => length r = columns) c) t.

Definition every {A} (P : A -> Prop) (t : list (list (list A))) : Prop :=
  Forall (Forall (Forall P)) t.

Definition map3 {A B} (f : A -> B) (t : list (list (list A))) : list (list (list B)) :=
  map (map (map f)) t.
