(** Vocabulary for C29, C30. *)
From Coq Require Import List NArith Permutation Sorted.
From Verif Require Import Columns_Model.
Import ListNotations.
Open Scope N_scope.

(** Source column [c] belongs to group [g]. *)
Definition covers (g : group) (c : N) : Prop := start_index g <= c < start_index g + source_column_count g.

(** A group of at least one column, within [size_t]. *)
Definition proper (g : group) : Prop := 1 <= source_column_count g /\ start_index g + source_column_count g <= 2 ^ 64.

(** What [std::sort] promises. *)
Definition sorts (sort : list group -> list group) : Prop :=
  forall l, Permutation l (sort l) /\ StronglySorted (fun a b => start_index a <= start_index b) (sort l).

(** Two different positions of the list, in either order. *)
Definition two_of (gs : list group) (a b : group) : Prop :=
  exists l m r, gs = l ++ a :: m ++ b :: r \/ gs = l ++ b :: m ++ a :: r.
