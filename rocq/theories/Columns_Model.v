(** Model of column groups: src/util/dataset_utils.hpp:23-44 (overlap check),
    src/training_data/training_dataset.hpp:334-362 [update_column_positions] and
    src/lang/statements/create_dataset_statement.hpp:126-155 (new positions). *)
From Coq Require Import List Bool Arith NArith.
From Verif Require Import Outcome.
Import ListNotations.
Open Scope N_scope.

(** The members of [ColumnGroup] that matter here; [size_t] values. *)
Record group := { start_index : N; source_column_count : N; expected_use : bool; group_id : N }.

(** src/util/dataset_utils.hpp:27-39 [has_overlap]; [size_t] arithmetic wraps. *)
Fixpoint has_overlap (sorted_groups : list group) : bool :=
  match sorted_groups with
  | prev :: ((curr :: _) as r) =>
    let prev_endIndex := (start_index prev + source_column_count prev + (2 ^ 64 - 1)) mod 2 ^ 64 in
    (start_index curr <? prev_endIndex) || has_overlap r
  | _ => false
  end.

(** src/util/dataset_utils.hpp:41-44; [sort] is what [std::sort] by start index does. *)
Definition sort_and_check_overlaps (sort : list group -> list group) (gs : list group) : list group * bool :=
  (sort gs, has_overlap (sort gs)).

(** src/lang/statements/create_dataset_statement.hpp:126-135. *)
Definition given_groups (gs : list group) : list group := filter (fun g => negb (expected_use g)) gs.
Definition expected_groups (gs : list group) : list group := filter expected_use gs.

(** src/lang/statements/create_dataset_statement.hpp:142-155: consecutive start indexes. *)
Fixpoint reindex (current_index : N) (gs : list group) : list group :=
  match gs with
  | [] => []
  | g :: r => {| start_index := current_index; source_column_count := source_column_count g;
                 expected_use := expected_use g; group_id := group_id g |}
              :: reindex ((current_index + source_column_count g) mod 2 ^ 64) r
  end.
Definition updated_groups (gs : list group) : list group := reindex 0 (given_groups gs ++ expected_groups gs).

(** src/training_data/training_dataset.hpp:347-351: the columns of one group, [record\[...\]] unchecked. *)
Definition group_columns {A} (record : list A) (g : group) : outcome (list A) :=
  omapM (fun i => vec_at record (N.to_nat ((start_index g + N.of_nat i) mod 2 ^ 64))) (seq 0 (N.to_nat (source_column_count g))).

(** src/training_data/training_dataset.hpp:346-357: the reorganised record. *)
Definition new_record {A} (given expected : list group) (record : list A) : outcome (list A) :=
  do a <- omapM (group_columns record) given; do b <- omapM (group_columns record) expected;
  Ok (concat a ++ concat b).

(** src/util/dataset_utils.hpp:381-408: what the encoder of a group gets; throws if the record is
    too short. *)
Definition column_data {A} (record : list A) (g : group) : outcome (list A) :=
  let width := start_index g + source_column_count g in
  if N.of_nat (length record) <=? start_index g then Throw
  else if N.of_nat (length record) <? width then Throw
  else Ok (firstn (N.to_nat (source_column_count g)) (skipn (N.to_nat (start_index g)) record)).
