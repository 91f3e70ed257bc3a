(** Vocabulary for the search of a label task. *)
From Coq Require Import List Arith Bool QArith Permutation Sorted.
From Verif Require Import Outcome TaskSearch_Model.
Import ListNotations.
Local Open Scope Q_scope.

(** What the standard promises of [std::sort] with the order of the leader board: nothing if it is no
    strict weak order on the elements. *)
Definition sorts (sort : list result -> list result) : Prop := forall l, sortable l = true ->
  Permutation (sort l) l /\ StronglySorted (fun a b => better b a = false) (sort l).
Definition distinct (l : list combination) : Prop := ForallOrdPairs (fun a b => ~ (fst a == fst b /\ snd a == snd b)) l.
(** No attempt throws or has an accuracy that is not a number, and none on the whole training data reaches
    the target. *)
Definition never_accurate (train : nat -> bool -> combination -> fate) : Prop :=
  forall k whole p, exists a loss, train k whole p = Trained (Some a) loss /\ (whole = true -> a < target_accuracy).
(** A loss that is at most another; [None] is infinite. *)
Definition at_most (a b : option Q) : Prop := match a, b with Some a, Some b => a <= b | None, Some _ => False | _, None => True end.
Inductive subsequence {X} : list X -> list X -> Prop :=
| sub_nil : subsequence [] []
| sub_keep : forall x l m, subsequence l m -> subsequence (x :: l) (x :: m)
| sub_drop : forall x l m, subsequence l m -> subsequence l (x :: m).
