(** Vocabulary for the accuracy of a network. *)
From Coq Require Import List Arith Bool ZArith Reals.
From Flocq Require Import Core IEEE754.BinarySingleNaN IEEE754.Binary IEEE754.Bits.
From Verif Require Import Outcome Chars F32_Model Tensor_Model.
Import ListNotations.

Notation F := binary32.
Section Right.
Context {G : Type} (predict : G -> outcome (list (tensor F))) (decoders : list (tensor F -> outcome str)).
(** Every prediction and every expected output of the record can be turned into text. *)
Definition decodable (r : G * list (tensor F)) : Prop := exists prediction, predict (fst r) = Ok prediction /\
  forall i d, nth_error decoders i = Some d -> exists p a s t, nth_error prediction i = Some p /\ nth_error (snd r) i = Some a /\ d p = Ok s /\ d a = Ok t.
(** The texts are the same, for every output. *)
Definition right (r : G * list (tensor F)) : Prop := exists prediction, predict (fst r) = Ok prediction /\
  forall i d, nth_error decoders i = Some d -> exists p a s, nth_error prediction i = Some p /\ nth_error (snd r) i = Some a /\ d p = Ok s /\ d a = Ok s.
End Right.

(** [flags] says of each record whether [P] holds. *)
Definition flagged {A} (P : A -> Prop) (records : list A) (flags : list bool) : Prop := Forall2 (fun r b => b = true <-> P r) records flags.
Definition hits (flags : list bool) : nat := length (filter (fun b => b) flags).
(** The records that are looked at: all, or as many as the limit allows. *)
Definition tested {A} (limit : Z) (records : list A) : list A := if (limit <? 0)%Z then records else firstn (Z.to_nat limit) records.
(** [x] is the fraction [h / n], rounded once. *)
Definition is_fraction (x : F) (h n : nat) : Prop :=
  finite x = true /\ B2R 24 128 x = round radix2 (SpecFloat.fexp 24 128) ZnearestE (INR h / INR n).
(** The nearest integer, halves away from zero. *)
Definition nearest (x : F) : Z := ZnearestA (B2R 24 128 x).
(** A tensor of one row whose first [n] elements are the numbers [w]. *)
Definition row_of (n : nat) (t : tensor F) (w : nat -> F) : Prop :=
  rows t = 1 /\ n <= cols t /\ forall j, j < n -> get t 0 j 0 = Ok (w j) /\ finite (w j) = true.
