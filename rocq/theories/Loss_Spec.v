(** What the loss functions should satisfy, independently of how they are computed. *)
From Coq Require Import List Arith Bool Reals.
From Verif Require Import Outcome Tensor_Model Tensor_Spec Scaling_Spec Reduce_Spec Loss_Model.
Import ListNotations.
Local Open Scope R_scope.

(** The elements [g] with the one at a position replaced by [x]. *)
Definition at_position (g : nat -> nat -> nat -> R) (r0 c0 k0 : nat) (x : R) : nat -> nat -> nat -> R :=
  fun r c k => if (Nat.eqb r r0 && Nat.eqb c c0 && Nat.eqb k k0)%bool then x else g r c k.

(** [value], as a function of the element of its argument at one position, has derivative [d] there. *)
Definition partial_derivative (value : tensor R -> outcome R) (n m K : nat) (g : nat -> nat -> nat -> R) (r0 c0 k0 : nat) (d : R) : Prop :=
  exists F : R -> R, (forall x p, is_tensor p n m K (at_position g r0 c0 k0 x) -> value p = Ok (F x)) /\
    derivable_pt_lim F (g r0 c0 k0) d.

(** [next] is what a step of size [eta] against the derivative reported by the loss makes of the
    prediction whose elements are [g]. *)
Definition descent_step (L : loss) (truth prediction : tensor R) (n m K : nat) (g : nat -> nat -> nat -> R) (eta : R) (next : tensor R) : Prop :=
  exists d delta, derivative_of L truth prediction = Ok d /\ is_tensor d n m K delta /\
    is_tensor next n m K (fun r c k => g r c k - eta * delta r c k).

Definition everywhere (n m K : nat) (P : nat -> nat -> nat -> Prop) : Prop :=
  forall r c k, (r < n)%nat -> (c < m)%nat -> (k < K)%nat -> P r c k.
Definition somewhere (n m K : nat) (P : nat -> nat -> nat -> Prop) : Prop :=
  exists r c k, (r < n)%nat /\ (c < m)%nat /\ (k < K)%nat /\ P r c k.

(** One element is 1, all others 0. *)
Definition one_hot (n m K : nat) (f : nat -> nat -> nat -> R) (r0 c0 k0 : nat) : Prop :=
  (r0 < n)%nat /\ (c0 < m)%nat /\ (k0 < K)%nat /\ f r0 c0 k0 = 1 /\
  everywhere n m K (fun r c k => (r, c, k) <> (r0, c0, k0) -> f r c k = 0).
