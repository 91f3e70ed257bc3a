(** What the properties of the statistics of a tensor say, without the definitions of the model other than the
    tensor itself and the 8-bit code of a number (see QuarterFloat). *)
From Coq Require Import List Arith Bool ZArith Permutation Sorted.
From Verif Require Import Float32_Spec QuarterFloat_Model Bags_Model.
Import ListNotations.
Local Open Scope Z_scope.

(** The elements that are numbers: neither infinite nor NaN. *)
Definition is_number (f : N) : bool := negb (f32_exp f =? 255)%N.
Definition numbers (l : list N) : list N := filter is_number l.
(** The 8-bit code of an element. *)
Definition code (bias : Z) (f : N) : Z := floatToQuarter (Z.of_N f) bias.

(** How many elements have a code. *)
Definition with_code (bias c : Z) (l : list N) : list N := filter (fun f => code bias f =? c) (numbers l).

(** No code stands for numbers of different signs. *)
Definition signs_apart (bias : Z) (l : list N) : Prop :=
  forall x y, In x (numbers l) -> In y (numbers l) -> code bias x = code bias y -> Z.sgn (f32_units x) = Z.sgn (f32_units y).

(** [v] is the value of an element with the code of [x], and none of them is further from 0. *)
Definition furthest (bias : Z) (l : list N) (x : N) (v : Z) : Prop :=
  (exists y, In y (numbers l) /\ code bias y = code bias x /\ f32_units y = v) /\
  (forall y, In y (numbers l) -> code bias y = code bias x -> Z.abs (f32_units y) <= Z.abs v).

(** The elements, each rounded away from 0 to the furthest one with its code, in order of their size. *)
Definition rounded_and_sorted (bias : Z) (l : list N) (s : list Z) : Prop :=
  exists r, Forall2 (furthest bias l) (numbers l) r /\ Permutation r s /\ Sorted Z.le s.

(** The lowest and the highest of the elements and 0. *)
Definition lowest (l : list N) (m : Z) : Prop := (m = 0 \/ exists x, In x (numbers l) /\ f32_units x = m) /\ m <= 0 /\ forall x, In x (numbers l) -> m <= f32_units x.
Definition highest (l : list N) (m : Z) : Prop := (m = 0 \/ exists x, In x (numbers l) /\ f32_units x = m) /\ 0 <= m /\ forall x, In x (numbers l) -> f32_units x <= m.

(** The largest number with an 8-bit code for a bias is 15 * 2^(11 - bias); in units of 2^-149. *)
Definition half_width (bias : Z) : Z := 15 * 2 ^ (160 - bias).
