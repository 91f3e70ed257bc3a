From Coq Require Import List Arith ZArith NArith Ascii.
From Flocq Require Import IEEE754.Binary IEEE754.Bits.
From Verif Require Import Chars F32_Model.
Import ListNotations.

(** [v] has [size] entries, 1 at [i] and 0 at every other place. *)
Definition unit_vector (size i : nat) (v : list binary32) : Prop :=
  length v = size /\ forall k, (k < size)%nat -> nth_error v k = Some (if Nat.eqb k i then of_Z 1 else of_Z 0).
Definition zero_vector (size : nat) (v : list binary32) : Prop :=
  length v = size /\ forall k, (k < size)%nat -> nth_error v k = Some (of_Z 0).
Definition ascii_only (t : str) : Prop := Forall (fun c => (code c < 128)%N) t.
