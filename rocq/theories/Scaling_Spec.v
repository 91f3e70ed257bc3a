(** Vocabulary for C32 - C34. *)
From Coq Require Import Reals List.
Import ListNotations.
Open Scope R_scope.

Definition sum (l : list R) : R := fold_right Rplus 0 l.
(** Arithmetic mean and population variance. *)
Definition average (l : list R) : R := sum l / INR (length l).
Definition variance (l : list R) : R := sum (map (fun x => (x - average l) ^ 2) l) / INR (length l).
Definition is_minimum (l : list R) (m : R) : Prop := In m l /\ forall x, In x l -> m <= x.
Definition is_maximum (l : list R) (m : R) : Prop := In m l /\ forall x, In x l -> x <= m.
