(** Vocabulary for C55 and C80. *)
From Coq Require Import List Arith NArith ZArith Reals.
From Flocq Require Import Core.
From Verif Require Import Outcome ModelFile_Model.
Import ListNotations.

(** For each vertex, in the order of creation, the vertices it was added after. *)
Fixpoint parents_of (cs : list call) : list (list nat) :=
  match cs with
  | [] => []
  | Add_input _ _ _ _ _ :: cs | Add_input_filters _ _ _ _ _ _ :: cs => [] :: parents_of cs
  | Add_layer p _ _ _ _ _ :: cs | Add_filters p _ _ _ _ _ :: cs => [p] :: parents_of cs
  | Add_concatenated ps :: cs => ps :: parents_of cs
  | Change _ _ :: cs => parents_of cs
  end.
Definition parents (cs : list call) (id : nat) : list nat := match id with O => [] | S i => nth i (parents_of cs) [] end.
(** The last of them, if any. *)
Definition last_parent (cs : list call) (id : nat) : option nat := nth_error (parents cs id) (length (parents cs id) - 1).

(** Reached by going from a vertex to its last parent again and again. *)
Inductive descends (cs : list call) (u : nat) : nat -> Prop :=
| descends_self : descends cs u u
| descends_step : forall p w, descends cs u p -> last_parent cs w = Some p -> descends cs u w.

(** Between a vertex and its last parent only descendants of that parent were added. *)
Definition depth_first (cs : list call) : Prop :=
  forall p v, last_parent cs v = Some p -> forall w, p < w < v -> descends cs p w.

Definition increasing (l : list nat) : Prop := forall i j a b, i < j -> nth_error l i = Some a -> nth_error l j = Some b -> a < b.
(** Concatenations name their parents in the order of creation, and the last is no descendant of another. *)
Definition joins_in_order (cs : list call) : Prop :=
  forall ps, In (Add_concatenated ps) cs ->
    increasing ps /\ forall i u l, i < length ps - 1 -> nth_error ps i = Some u -> nth_error ps (length ps - 1) = Some l -> ~ descends cs u l.
Definition joins_something (cs : list call) : Prop := ~ In (Add_concatenated []) cs.

(** Filters: at least one, in a layer that has weights. *)
Definition has_filters (c : call) : Prop :=
  match c with
  | Add_input_filters t _ n _ _ _ | Add_filters _ n _ t _ _ => (0 < n)%N /\ (t = full \/ t = convolution2dValid)
  | _ => True
  end.

(** A [float] that fifteen decimals describe. *)
Definition fits15 (x : R) : Prop :=
  generic_format radix2 (FLT_exp (-149) 24) x /\ (Rabs x < bpow radix2 128)%R /\ (x = 0%R \/ (bpow radix2 (-25) <= Rabs x)%R).
Definition size64 (s : N * N * N) : Prop := let '(a, b, c) := s in (a < 2 ^ 64 /\ b < 2 ^ 64 /\ c < 2 ^ 64)%N.
(** The arguments of a call are [size_t], [uint8_t] and such floats. *)
Definition machine_values (c : call) : Prop :=
  match c with
  | Add_input _ i o _ _ => size64 i /\ size64 o
  | Add_input_filters _ i n k _ _ => size64 i /\ (n < 2 ^ 64)%N /\ (k < 2 ^ 64)%N
  | Add_layer _ i o _ _ _ => size64 i /\ size64 o
  | Add_filters _ n k _ _ _ => (n < 2 ^ 64)%N /\ (k < 2 ^ 64)%N
  | Add_concatenated ps => (N.of_nat (length ps) < 2 ^ 64)%N
  | Change (Strength x) _ | Change (Norm_clipping_threshold x) _ | Change (Dropout_rate x) _ => fits15 x
  | Change (Bits n) _ => (n < 256)%N
  | Change _ _ => True
  end.

(** Position of the connections into [w], in the order they are made. *)
Definition arriving (w : nat) (cs : list (nat * nat)) : list nat := map fst (filter (fun c => Nat.eqb (snd c) w) cs).
