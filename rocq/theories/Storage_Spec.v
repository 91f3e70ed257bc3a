(** Vocabulary for C93-C95. Sizes are in units of 2^-149, so 1 is [2^149]. *)
From Coq Require Import List NArith ZArith.
From Verif Require Import Float32_Spec Storage_Model.
Open Scope Z_scope.

(** Every element satisfies [P]. *)
Definition all_elements (t : tensor) (P : N -> Prop) : Prop :=
  forall r c k, (r < rows t)%nat -> (c < cols t)%nat -> (k < chans t)%nat -> P (value t r c k).
Definition some_element (t : tensor) (P : N -> Prop) : Prop :=
  exists r c k, (r < rows t)%nat /\ (c < cols t)%nat /\ (k < chans t)%nat /\ P (value t r c k).
(** The elements at the same position are related by [R]. *)
Definition elementwise (t s : tensor) (R : N -> N -> Prop) : Prop :=
  rows s = rows t /\ cols s = cols t /\ chans s = chans t /\
  forall r c k, (r < rows t)%nat -> (c < cols t)%nat -> (k < chans t)%nat -> R (value t r c k) (value s r c k).

Definition is_float (x : N) : Prop := (x < 2 ^ 32)%N /\ f32_finite x.
Definition one : Z := 2 ^ 149.
Definition magnitude (x : N) : Z := Z.abs (f32_units x).
Definition distance (x y : N) : Z := Z.abs (f32_units y - f32_units x).

(** Not empty *)
Definition solid (t : tensor) : Prop := (0 < rows t)%nat /\ (0 < cols t)%nat /\ (0 < chans t)%nat.
(** Counts of 64 bits *)
Definition fits_file (t : tensor) : Prop := (N.of_nat (rows t) < 2^64 /\ N.of_nat (cols t) < 2^64 /\ N.of_nat (chans t) < 2^64)%N.

(** The element of a nested list, if it has one there. *)
Definition cell {A} (d : list (list (list A))) (row column channel : nat) : option A :=
  match nth_error d channel with
  | Some c => match nth_error c row with Some r => nth_error r column | None => None end
  | None => None
  end.
