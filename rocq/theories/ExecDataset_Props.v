(** C98: executing a task on a dataset shows for every record what typing the record shows.
    C99: printing a dataset shows its records. *)
From Coq Require Import Reals List Bool Arith NArith ZArith Lia Lra.
From Verif Require Import Chars Outcome TensorFile_Model F32_Model Scaling_Model Encode_Model DataSet_Model ExecDataset_Model ExecDataset_Spec ExecDataset_Proofs.
Import ListNotations.
Open Scope R_scope.

(** ** C98 *)

(** Full claim: for any dataset with the task's columns, the row shown for a record has the predictions
    that typing the record's given values shows, then these values; one row per record, in order.
    Proved: for the dataset the task was created from, when all its given columns are scaled alike
    (as with a single given column), up to 2^24 records. Missing: float rounding. False otherwise:
    below. *)
Theorem dataset_execution_partial : forall predict shuffled d records first,
  holds d records -> Forall proper_column (given_metadata d) -> Forall (alike first) (given_metadata d) ->
  length shuffled = length (rows d) -> (N.of_nat (length (rows d)) <= 2 ^ 24)%N ->
  execute_with_dataset predict shuffled d =
  omapM (fun r => do shown <- execute_with_inputs predict (expected_metadata d) (typed (given_metadata d) (fst r));
                  Ok (shown ++ all_written (given_metadata d) (fst r))) records.
Proof.
  intros predict shuffled d records first H P A L Hn. rewrite execute_rows by assumption. eapply omapM_pair; [exact H|]. intros r row [G _]. cbn beta.
  assert (Q : load_group (given_metadata d) (given_metadata d) (fst row) = fst row).
  { unfold load_group. destruct (given_metadata d) as [|m ms] eqn:E; [reflexivity|]. rewrite <- E in *. apply (group_alike m _ (fst r)); [exact P| |exact G].
    rewrite E in A. inversion A as [|? ? A1 A2]; subst. rewrite E. constructor; [intro; reflexivity|].
    apply Forall_forall. intros a Ha x. rewrite <- (A1 x). now apply (proj1 (Forall_forall _ _) A2). }
  unfold show_predictions, read_row. cbn [fst snd]. rewrite Q. rewrite (stores_typed _ _ _ G).
  unfold execute_with_inputs, merge_records. destruct (predict (fst row)) as [ps| |]; cbn [obind]; [|reflexivity|reflexivity].
  destruct (record_group_to_strings _ ps) as [e| |]; cbn [obind]; [|reflexivity|reflexivity].
  rewrite (group_written _ (fst r)) by assumption. reflexivity.
Qed.
Print Assumptions dataset_execution_partial.

(** What happens with any dataset: the network receives every column scaled like the first one, labels
    included, and the table shows these tensors scaled back by the column's own values. Labels are
    always shown right. *)
Theorem dataset_execution_scaled_as_first : forall predict shuffled d records first others,
  given_metadata d = first :: others ->
  holds d records -> Forall proper_column (given_metadata d) -> Forall (fun m => NoDup (m_labels m)) (given_metadata d) ->
  length shuffled = length (rows d) -> (N.of_nat (length (rows d)) <= 2 ^ 24)%N ->
  execute_with_dataset predict shuffled d =
  omapM (fun r => do shown <- execute_with_inputs predict (expected_metadata d)
                                (map (fun p => map (scale exact (m_scaling first)) (plain (fst p) (snd p))) (combine (given_metadata d) (fst r)));
                  Ok (shown ++ map (fun p => misread first (fst p) (snd p)) (combine (given_metadata d) (fst r)))) records.
Proof.
  intros predict shuffled d records first others E H P D L Hn. rewrite execute_rows by assumption. eapply omapM_pair; [exact H|]. intros r row [G _]. cbn beta.
  assert (P0 : proper_column first) by (rewrite E in P; now inversion P).
  assert (Q : load_group (given_metadata d) (given_metadata d) (fst row) =
              map (fun p => map (rescale exact (m_scaling (fst p)) (m_scaling first)) (snd p)) (combine (given_metadata d) (fst row))) by (unfold load_group; rewrite E at 1; reflexivity).
  unfold show_predictions, read_row. cbn [fst snd]. rewrite Q. rewrite <- (group_plain first _ (fst r) (fst row)) by assumption.
  unfold execute_with_inputs, merge_records. destruct (predict _) as [ps| |]; cbn [obind]; [|reflexivity|reflexivity].
  destruct (record_group_to_strings _ ps) as [e| |]; cbn [obind]; [|reflexivity|reflexivity].
  rewrite (group_misread first _ (fst r)) by assumption. reflexivity.
Qed.
Print Assumptions dataset_execution_scaled_as_first.

Lemma proper_as_is : proper as_is. Proof. split; intro H; discriminate. Qed.
Lemma proper_up_to top : 0 < top -> proper (up_to top). Proof. intro H. split; intro Q; [discriminate|exact H]. Qed.
Lemma proper_fraction top : 0 < top -> proper_column (fraction top).
Proof. intro H. split; [now apply proper_up_to|]. intro Q. now elim Q. Qed.
Lemma proper_plain : proper_column plain_number.
Proof. split; [exact proper_as_is|]. intro Q. split; reflexivity. Qed.
Lemma proper_label ls : proper_column (label_of ls).
Proof. split; [exact proper_as_is|]. intro Q. split; reflexivity. Qed.

Definition word (n : nat) : str := repeat (Ascii.ascii_of_nat 97) n.

(** False for the dataset the task was created from, with two number columns: 5 out of 10 and 50 out
    of 100. Typed, the second reaches the network as 1/2. From the dataset it reaches the
    network as 5 and is shown as 500. *)
Theorem own_dataset_refuted : exists predict d records,
  holds d records /\ Forall proper_column (given_metadata d) /\ Forall proper_column (expected_metadata d) /\
  map (fun r => fst r) records = [[Numbers [5]; Numbers [50]]] /\
  execute_with_inputs predict (expected_metadata d) (typed (given_metadata d) [Numbers [5]; Numbers [50]]) = Ok [ShowValues [1/2]] /\
  execute_with_dataset predict [0%nat] d = Ok [[ShowValues [5]; ShowValues [5]; ShowValues [500]]].
Proof.
  set (d := {| given_metadata := [fraction 10; fraction 100]; expected_metadata := [plain_number];
               rows := [([map (scale exact (up_to 10)) [5]; map (scale exact (up_to 100)) [50]], [map (scale exact as_is) [7]])] |}).
  exists (fun g => Ok [nth 1 g []]), d, [([Numbers [5]; Numbers [50]], [Numbers [7]])].
  assert (H : holds d [([Numbers [5]; Numbers [50]], [Numbers [7]])]).
  { constructor; [|constructor]. split; cbn [fst snd given_metadata expected_metadata d]; repeat constructor. }
  assert (P : Forall proper_column (given_metadata d)) by (constructor; [apply proper_fraction; lra|constructor; [apply proper_fraction; lra|constructor]]).
  repeat split; [exact H|exact P|constructor; [exact proper_plain|constructor]| |].
  - cbn. do 3 f_equal. unfold scale, normalise. cbn. apply f_equal2; [lra|reflexivity].
  - rewrite (dataset_execution_scaled_as_first _ _ d _ (fraction 10) [fraction 100] eq_refl H P); [|repeat constructor; intros []|reflexivity|cbn; lia].
    cbn. unfold scale, unscale, normalise, denormalise. cbn. do 2 f_equal. repeat (apply f_equal2; [|]); try reflexivity; f_equal; apply f_equal2; try reflexivity; lra.
Qed.
Print Assumptions own_dataset_refuted.

(** ... and with a label beside a number: the one of the label reaches the network as 1/10. *)
Theorem label_beside_number_refuted : exists predict d records,
  holds d records /\ Forall proper_column (given_metadata d) /\ Forall proper_column (expected_metadata d) /\
  map (fun r => fst r) records = [[Numbers [5]; Word (word 2)]] /\
  execute_with_inputs predict (expected_metadata d) (typed (given_metadata d) [Numbers [5]; Word (word 2)]) = Ok [ShowValues [0; 1]] /\
  execute_with_dataset predict [0%nat] d = Ok [[ShowValues [0; 1/10]; ShowValues [5]; ShowLabel (word 2)]].
Proof.
  set (d := {| given_metadata := [fraction 10; label_of [word 1; word 2]]; expected_metadata := [plain_number];
               rows := [([map (scale exact (up_to 10)) [5]; [0; 1]], [map (scale exact as_is) [7]])] |}).
  exists (fun g => Ok [nth 1 g []]), d, [([Numbers [5]; Word (word 2)], [Numbers [7]])].
  assert (H : holds d [([Numbers [5]; Word (word 2)], [Numbers [7]])]).
  { constructor; [|constructor]. split; cbn [fst snd given_metadata expected_metadata d]; repeat constructor. }
  assert (P : Forall proper_column (given_metadata d)) by (constructor; [apply proper_fraction; lra|constructor; [apply proper_label|constructor]]).
  repeat split; [exact H|exact P|constructor; [exact proper_plain|constructor]| ].
  rewrite (dataset_execution_scaled_as_first _ _ d _ (fraction 10) [label_of [word 1; word 2]] eq_refl H P); [| |reflexivity|cbn; lia].
  - cbn. unfold scale, unscale, normalise, denormalise. cbn. do 2 f_equal.
    apply f_equal2; [f_equal; apply f_equal2; [lra|apply f_equal2; [lra|reflexivity]]|]. apply f_equal2; [f_equal; apply f_equal2; [lra|reflexivity]|reflexivity].
  - constructor; [constructor|]. constructor; [|constructor]. cbn. constructor; [intros [Q|[]]; discriminate|]. constructor; [intros []|constructor].
Qed.
Print Assumptions label_beside_number_refuted.

(** False for another dataset with the same columns but other numbers: the dataset's own scaling is used,
    not the task's. Here 5 is 5 out of 100 for the task and 5 out of 10 for the dataset. *)
Theorem other_dataset_refuted : exists predict task_given task_expected d,
  given_metadata d = [fraction 10] /\ task_given = [fraction 100] /\ expected_metadata d = task_expected /\ holds d [([Numbers [5]], [Numbers [7]])] /\
  execute_with_inputs predict task_expected (typed task_given [Numbers [5]]) = Ok [ShowValues [1/20]] /\
  execute_with_dataset predict [0%nat] d = Ok [[ShowValues [1/2]; ShowValues [5]]].
Proof.
  set (d := {| given_metadata := [fraction 10]; expected_metadata := [plain_number]; rows := [([map (scale exact (up_to 10)) [5]], [map (scale exact as_is) [7]])] |}).
  exists (fun g => Ok g), [fraction 100], [plain_number], d.
  assert (H : holds d [([Numbers [5]], [Numbers [7]])]).
  { constructor; [|constructor]. split; cbn [fst snd given_metadata expected_metadata d]; repeat constructor. }
  repeat split; [exact H| |].
  - cbn. do 2 f_equal. unfold scale, normalise. cbn. f_equal. apply f_equal2; [lra|reflexivity].
  - rewrite (dataset_execution_partial _ _ d _ (fraction 10) H); [| | |reflexivity|cbn; lia].
    + cbn. do 2 f_equal. unfold scale, normalise. cbn. apply f_equal2; [f_equal; apply f_equal2; [lra|reflexivity]|reflexivity].
    + constructor; [apply proper_fraction; lra|constructor].
    + constructor; [intro; reflexivity|constructor].
Qed.
Print Assumptions other_dataset_refuted.

(** False for a dataset whose expected column has other labels: the prediction is named after the
    dataset's labels. *)
Theorem other_labels_refuted : exists predict task_expected d,
  holds d [([Numbers [5]], [Word (word 1)])] /\
  execute_with_inputs predict task_expected (typed (given_metadata d) [Numbers [5]]) = Ok [ShowLabel (word 3)] /\
  execute_with_dataset predict [0%nat] d = Ok [[ShowLabel (word 2); ShowValues [5]]].
Proof.
  set (d := {| given_metadata := [plain_number]; expected_metadata := [label_of [word 1; word 2]]; rows := [([map (scale exact as_is) [5]], [[1; 0]])] |}).
  exists (fun g => Ok [[0; 1]]), [label_of [word 2; word 3]], d.
  assert (H : holds d [([Numbers [5]], [Word (word 1)])]).
  { constructor; [|constructor]. split; cbn [fst snd given_metadata expected_metadata d]; repeat constructor. }
  assert (M : max_index [0; 1] = 1%nat) by (cbn; destruct (Rlt_dec 0 1); [reflexivity|lra]).
  repeat split; [exact H| |].
  - unfold execute_with_inputs. cbn [obind map record_group_to_strings build_decoder label_of m_purpose m_labels record_to_strings]. rewrite M. reflexivity.
  - rewrite (dataset_execution_partial _ _ d _ plain_number H); [| | |reflexivity|cbn; lia].
    + unfold execute_with_inputs. cbn [omapM expected_metadata d obind map record_group_to_strings build_decoder label_of m_purpose m_labels record_to_strings]. rewrite M. reflexivity.
    + constructor; [exact proper_plain|constructor].
    + constructor; [intro; reflexivity|constructor].
Qed.
Print Assumptions other_labels_refuted.

(** A dataset without expected columns cannot be used: a decoder past the end is read. *)
Theorem no_expected_columns_undefined : forall predict shuffled d,
  expected_metadata d = [] -> rows d <> [] -> length shuffled = length (rows d) -> (N.of_nat (length (rows d)) <= 2 ^ 24)%N ->
  (forall given, exists p ps, predict given = Ok (p :: ps)) ->
  execute_with_dataset predict shuffled d = UB.
Proof.
  intros predict shuffled d E N L H Q. rewrite execute_rows by assumption. destruct (rows d) as [|row rs]; [now elim N|]. cbn [omapM].
  unfold show_predictions at 1. destruct (Q (fst (read_row (given_metadata d) (expected_metadata d) d row))) as (p & ps & ->). cbn [obind]. unfold merge_records. rewrite E. reflexivity.
Qed.
Print Assumptions no_expected_columns_undefined.

(** ** C99 *)

(** Full claim: [print pretty name limit n] shows the records of the dataset, the first n of them with a limit:
    expected values, then given values, as they were when the dataset was created.
    Proved in exact arithmetic; missing: float rounding (C32) and the padding (C61). *)
Theorem print_shows_partial : forall d records limit,
  holds d records -> Forall proper_column (given_metadata d) -> Forall proper_column (expected_metadata d) -> (0 <= limit < 2 ^ 31)%Z ->
  let row r := all_written (expected_metadata d) (snd r) ++ all_written (given_metadata d) (fst r) in
  pretty_print d (-1) false = Ok (map row records) /\
  pretty_print d limit false = Ok (map row (firstn (Z.to_nat limit) records)).
Proof.
  intros d records limit H PG PE Hl row.
  assert (G : forall k, omapM (fun row => let (given, expected) := read_row [] [] d row in
     merge_records (map (build_decoder false) (expected_metadata d)) expected (map (build_decoder false) (given_metadata d)) given) (firstn k (rows d)) = Ok (map row (firstn k records))).
  { intro k. rewrite (pretty_rows d records k false (fun r _ => row r) H).
    - f_equal. pose proof (Forall2_firstn _ k _ _ H) as F. clear - F. induction F; [reflexivity|]. cbn [combine map fst]. now rewrite IHF.
    - intros r x _ A B. unfold merge_records. rewrite (group_written _ (snd r)) by assumption. cbn [obind]. rewrite (group_written _ (fst r)) by assumption. reflexivity. }
  assert (L : length (rows d) = length records) by (clear - H; unfold holds in H; induction H; cbn; congruence).
  unfold pretty_print. split.
  - change (max_result_rows (length (rows d)) (-1)) with (length (rows d)). rewrite G, L. now rewrite firstn_all.
  - rewrite limited_rows by lia. rewrite firstn_min. apply G.
Qed.
Print Assumptions print_shows_partial.

(** [print raw] shows the stored tensors. *)
Theorem print_raw : forall d records limit, holds d records -> (0 <= limit < 2 ^ 31)%Z ->
  let row := fun r : list (list R) * list (list R) => map ShowValues (snd r ++ fst r) in
  pretty_print d (-1) true = Ok (map row (rows d)) /\ pretty_print d limit true = Ok (map row (firstn (Z.to_nat limit) (rows d))).
Proof.
  intros d records limit H Hl row.
  assert (G : forall k, omapM (fun row => let (given, expected) := read_row [] [] d row in
     merge_records (map (build_decoder true) (expected_metadata d)) expected (map (build_decoder true) (given_metadata d)) given) (firstn k (rows d)) = Ok (map row (firstn k (rows d)))).
  { intro k. rewrite (pretty_rows d records k true (fun _ r => row r) H).
    - f_equal. pose proof (Forall2_firstn _ k _ _ H) as F. clear - F. induction F; [reflexivity|]. cbn [combine map snd]. now rewrite IHF.
    - intros r x _ A B. unfold merge_records. rewrite (raw_group _ _ _ B). cbn [obind]. rewrite (raw_group _ _ _ A). cbn [obind]. unfold row. now rewrite map_app. }
  unfold pretty_print. split.
  - change (max_result_rows (length (rows d)) (-1)) with (length (rows d)). rewrite G. now rewrite firstn_all.
  - rewrite limited_rows by lia. rewrite firstn_min. apply G.
Qed.
Print Assumptions print_raw.

(** Any negative limit means no limit. *)
Theorem negative_limit_shows_all : forall d limit raw, (- 2 ^ 31 <= limit < 0)%Z -> (N.of_nat (length (rows d)) < 2 ^ 63)%N ->
  pretty_print d limit raw = pretty_print d (-1) raw.
Proof.
  intros d limit raw H Hn. unfold pretty_print. rewrite negative_rows by assumption. reflexivity.
Qed.
Print Assumptions negative_limit_shows_all.

(** A dataset that meets the hypotheses of every theorem above: one given label, an expected number
    between 0 and 10, two records. *)
Example printed : exists d,
  holds d [([Word (word 1)], [Numbers [5]]); ([Word (word 2)], [Numbers [10]])] /\
  Forall proper_column (given_metadata d) /\ Forall proper_column (expected_metadata d) /\ Forall (alike plain_number) (given_metadata d) /\
  Forall (fun m => NoDup (m_labels m)) (given_metadata d) /\
  pretty_print d 1 false = Ok [[ShowValues [5]; ShowLabel (word 1)]] /\
  execute_with_dataset (fun g => Ok [[1/2]]) [1%nat; 0%nat] d = Ok [[ShowValues [5]; ShowLabel (word 1)]; [ShowValues [5]; ShowLabel (word 2)]].
Proof.
  set (d := {| given_metadata := [label_of [word 1; word 2]]; expected_metadata := [fraction 10];
               rows := [([[1; 0]], [map (scale exact (up_to 10)) [5]]); ([[0; 1]], [map (scale exact (up_to 10)) [10]])] |}).
  exists d.
  assert (H : holds d [([Word (word 1)], [Numbers [5]]); ([Word (word 2)], [Numbers [10]])]).
  { constructor; [split; repeat constructor|]. constructor; [split; repeat constructor|constructor]. }
  assert (PG : Forall proper_column (given_metadata d)) by (constructor; [apply proper_label|constructor]).
  assert (PE : Forall proper_column (expected_metadata d)) by (constructor; [apply proper_fraction; lra|constructor]).
  assert (A : Forall (alike plain_number) (given_metadata d)) by (constructor; [intro; reflexivity|constructor]).
  split; [exact H|]. split; [exact PG|]. split; [exact PE|]. split; [exact A|]. split.
  { constructor; [|constructor]. cbn. constructor; [intros [Q|[]]; discriminate|]. constructor; [intros []|constructor]. }
  split.
  - destruct (print_shows_partial d _ 1 H PG PE) as [_ E]; [lia|]. rewrite E. reflexivity.
  - rewrite (dataset_execution_partial _ _ d _ plain_number H PG A); [|reflexivity|cbn; lia].
    cbn. unfold unscale, denormalise. cbn. replace (1 / 2 * (10 - 0) + 0) with 5 by lra. reflexivity.
Qed.
