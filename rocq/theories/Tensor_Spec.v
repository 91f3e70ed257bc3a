(** What the layout views, matrix views and convolutions should give, stated on shapes and elements. *)
From Coq Require Import List Arith.
From Verif Require Import Outcome Tensor_Model.
Import ListNotations.

(** [(r, c, k)] is a position of [t]. *)
Definition in_range {A} (t : tensor A) (r c k : nat) : Prop := r < rows t /\ c < cols t /\ k < chans t.
(** Every position of [t] can be read. *)
Definition readable {A} (t : tensor A) : Prop := forall r c k, in_range t r c k -> exists v, get t r c k = Ok v.
(** Same shape and same element at every position. *)
Definition same {A} (t u : tensor A) : Prop :=
  rows t = rows u /\ cols t = cols u /\ chans t = chans u /\
  forall r c k, in_range t r c k -> get t r c k = get u r c k.
(** [t] is the [r] by [c] by [k] tensor with elements [f]. *)
Definition is_tensor {A} (t : tensor A) (r c k : nat) (f : nat -> nat -> nat -> A) : Prop :=
  rows t = r /\ cols t = c /\ chans t = k /\
  forall i j l, i < r -> j < c -> l < k -> get t i j l = Ok (f i j l).

(** f 0 + ... + f (n-1) *)
Fixpoint Sum {A} (o : ops A) (n : nat) (f : nat -> A) : A :=
  match n with 0 => zero o | S n' => add o (Sum o n' f) (f n') end.

(** Integer arithmetic, for the examples. *)
From Coq Require Import ZArith.
Definition zops : ops Z := {| zero := 0%Z; one := 1%Z; add := Z.add; sub := Z.sub; mul := Z.mul;
                              div := Z.div; eqb := Z.eqb; gtb := Z.gtb |}.
