(** Result of running a modelled C++ function. *)
From Coq Require Import List.
Import ListNotations.

(** [Ok v]: normal return.  [Throw]: a C++ exception leaves the function.
    [UB]: the C++ standard gives the execution no meaning (index out of range
    with [operator\[\]], [back()] of an empty container, division by zero ...). *)
Inductive outcome (A : Type) : Type :=
| Ok (a : A)
| Throw
| UB.
Arguments Ok {A} a.
Arguments Throw {A}.
Arguments UB {A}.

Definition obind {A B} (x : outcome A) (f : A -> outcome B) : outcome B :=
  match x with Ok a => f a | Throw => Throw | UB => UB end.

Notation "'do' x <- e1 ; e2" := (obind e1 (fun x => e2))
  (at level 200, x name, e1 at level 100, e2 at level 200).

Definition omap {A B} (f : A -> B) (x : outcome A) : outcome B :=
  match x with Ok a => Ok (f a) | Throw => Throw | UB => UB end.

Definition is_ok {A} (x : outcome A) : Prop := exists a, x = Ok a.

(** [std::vector::operator[]]: undefined behaviour out of range. *)
Definition vec_at {A} (l : list A) (i : nat) : outcome A :=
  match nth_error l i with Some a => Ok a | None => UB end.

(** Map with effects, left to right; stops at the first failure. *)
Fixpoint omapM {A B} (f : A -> outcome B) (l : list A) : outcome (list B) :=
  match l with
  | [] => Ok []
  | x :: r => do y <- f x; do ys <- omapM f r; Ok (y :: ys)
  end.
