(** C23, C24, C25 - the binary dataset file. *)
From Coq Require Import List Bool Arith NArith ZArith Lia.
From Verif Require Import Outcome PortableBytes_Model TensorFile_Model TensorFile_Spec TensorFile_Proofs
  Lru_Model Lru_Spec Lru_Proofs QuarterFloat_Model DatasetFile_Model DatasetFile_Spec DatasetFile_Proofs.
Import ListNotations.
Open Scope N_scope.

(** C23: with the cache disabled every row is written and every call returns true. *)
Theorem writer_cache_disabled :
  forall hp given expected rs, given <> [] -> Forall (row_fits given expected) rs ->
    exists file, write_dataset hp 0 given expected rs = Ok (file, repeat true (length rs)).
Proof.
  intros hp given expected rs Hg Hf. unfold write_dataset. rewrite (write_header_ok _ _ Hg). cbn [obind].
  rewrite (write_rows_none hp _ _ _ Hf). cbn [obind fst snd]. eexists. do 2 f_equal.
  clear Hf. induction rs as [|r rs IH]; cbn; [reflexivity|now f_equal].
Qed.
Print Assumptions writer_cache_disabled.

(** C23: with a cache of [c] keys a row is skipped exactly when its key is one of the last [c] keys
    written; if there are at most [c] different keys the written rows are exactly the first
    occurrences; and for every row some row with its key is written. *)
Theorem writer_deduplicates :
  forall hp c given expected rs, (0 < c)%nat -> given <> [] -> Forall (row_fits given expected) rs ->
    let keys := map (fun r => compute_given_hash hp (fst r)) rs in
    exists file, write_dataset hp c given expected rs = Ok (file, fresh_flags c [] keys) /\
      ((forall l, NoDup l -> incl l keys -> (length l <= c)%nat) -> fresh_flags c [] keys = first_flags [] keys) /\
      (forall k, In k keys -> In k (chosen (fresh_flags c [] keys) keys)).
Proof.
  intros hp c given expected rs Hc Hg Hf keys. unfold write_dataset. rewrite (write_header_ok _ _ Hg). cbn [obind].
  destruct c as [|c]; [lia|]. rewrite (write_rows_some hp _ _ (S c) rs Hc Hf [] (new_lru (S c)) (holds_new (S c))).
  cbn [obind fst snd]. eexists. split; [reflexivity|]. split.
  - intro H. apply fresh_first; [tauto|constructor|exact H].
  - intros k Hk. destruct (fresh_all_written (S c) keys [] k Hk) as [[]|H]. exact H.
Qed.
Print Assumptions writer_deduplicates.

(** C24: whatever was written is read back: same metadata, as many rows as were written, row [i]
    holds the values of the [i]-th written row (labels as 8-bit floats, images as pixels, everything
    else bit for bit), an index past the end throws. *)
Theorem dataset_round_trip :
  forall hp c given expected rs to_pixel ren,
    given <> [] -> Forall fits given -> Forall fits expected ->
    N.of_nat (length given) < 2 ^ 64 -> N.of_nat (length expected) < 2 ^ 64 ->
    Forall (row_fits given expected) rs ->
    0 < bytes_per_row (given ++ expected) < 2 ^ 64 ->
    N.of_nat (length rs) * bytes_per_row (given ++ expected) < 2 ^ 64 ->
    exists file flags d,
      write_dataset hp c given expected rs = Ok (file, flags) /\ length flags = length rs /\
      open_dataset file = Ok d /\
      given_metadata d = given /\ expected_metadata d = expected /\
      let kept := chosen flags rs in
      number_of_rows d = N.of_nat (length kept) /\
      (forall i r, nth_error kept i = Some r ->
         read_row to_pixel ren [] [] d (N.of_nat i) =
           Ok (zip_with (in_memory to_pixel) given (fst r), zip_with (in_memory to_pixel) expected (snd r))) /\
      (forall i, N.of_nat (length kept) <= i -> read_row to_pixel ren [] [] d i = Throw).
Proof.
  intros hp c given expected rs px ren Hg0 Hg He Lg Le Hf Hs Ht.
  assert (W : exists flags, write_dataset hp c given expected rs =
      Ok (header_bytes given expected ++ concat (map row_body (chosen flags rs)), flags) /\ length flags = length rs).
  { unfold write_dataset. rewrite (write_header_ok _ _ Hg0). cbn [obind]. destruct c as [|c].
    - rewrite (write_rows_none hp _ _ _ Hf). cbn [obind fst snd]. exists (map (fun _ => true) rs).
      split; [|now rewrite map_length]. do 3 f_equal. f_equal. clear. induction rs; cbn; congruence.
    - rewrite (write_rows_some hp _ _ (S c) rs (Nat.lt_0_succ c) Hf [] (new_lru (S c)) (holds_new (S c))). cbn [obind fst snd].
      eexists. split; [reflexivity|]. now rewrite fresh_flags_length, map_length. }
  destruct W as (flags & W & Lf). set (kept := chosen flags rs) in *.
  assert (Hk : Forall (row_fits given expected) kept /\ (length kept <= length rs)%nat).
  { subst kept. clear - Hf. revert flags. induction Hf as [|r rs Hr _ IH]; intro flags; [destruct flags as [|[]]; cbn; auto|].
    destruct flags as [|[] flags]; cbn; [split; [constructor|lia]| |]; destruct (IH flags) as [A B]; (split; [try constructor; assumption|lia]). }
  destruct Hk as [Hk Lk].
  assert (Lb : length (concat (map row_body kept)) = (length kept * N.to_nat (bytes_per_row (given ++ expected)))%nat).
  { clear - Hk. induction Hk as [|r l Hr _ IH]; [reflexivity|]. cbn [map concat length]. rewrite app_length, IH, (row_body_length _ _ _ Hr). lia. }
  destruct (read_cut given expected kept (length (concat (map row_body kept))) px ren Hg He Lg Le Hk Hs) as (d & E & E1 & E2 & E3 & E4 & E5).
  { rewrite Lb. nia. } { lia. }
  rewrite firstn_all in E.
  assert (R : N.of_nat (length (concat (map row_body kept))) / bytes_per_row (given ++ expected) = N.of_nat (length kept)).
  { rewrite Lb, Nat2N.inj_mul, N2Nat.id. apply N.div_mul. lia. }
  rewrite R in *. exists (header_bytes given expected ++ concat (map row_body kept)), flags, d.
  repeat (split; [assumption|]). split; [|exact E4].
  intros i r Hi. apply E5; [|exact Hi]. assert (Hl : (i < length kept)%nat) by (apply nth_error_Some; change (nth_error kept i = Some r) in Hi; rewrite Hi; discriminate). clear - Hl. lia.
Qed.
Print Assumptions dataset_round_trip.

(** C24: label values 0 and 1 are exact in the 8-bit form. *)
Theorem label_values_exact :
  forall x, x = 0 \/ x = 0x3F800000 -> Z.to_N (quarterToFloat (store_quarter 4 x) 4) = x.
Proof. intros x [-> | ->]; reflexivity. Qed.
Print Assumptions label_values_exact.

(** C25: the file cut at any byte after the header opens with the same metadata and gives exactly
    the rows that are completely in the file. *)
Theorem dataset_cut_after_header :
  forall hp given expected rs to_pixel ren header file flags n,
    Forall fits given -> Forall fits expected ->
    N.of_nat (length given) < 2 ^ 64 -> N.of_nat (length expected) < 2 ^ 64 ->
    Forall (row_fits given expected) rs ->
    let size := bytes_per_row (given ++ expected) in
    0 < size < 2 ^ 64 -> N.of_nat (length rs) * size < 2 ^ 64 ->
    write_header given expected = Ok header ->
    write_dataset hp 0 given expected rs = Ok (file, flags) ->
    (length header <= n <= length file)%nat ->
    let complete := N.of_nat (n - length header) / size in
    exists d, open_dataset (firstn n file) = Ok d /\ given_metadata d = given /\ expected_metadata d = expected /\
      number_of_rows d = complete /\ complete <= N.of_nat (length rs) /\
      (forall i r, N.of_nat i < complete -> nth_error rs i = Some r ->
         read_row to_pixel ren [] [] d (N.of_nat i) =
           Ok (zip_with (in_memory to_pixel) given (fst r), zip_with (in_memory to_pixel) expected (snd r))) /\
      (forall i, complete <= i -> read_row to_pixel ren [] [] d i = Throw).
Proof.
  intros hp given expected rs px ren header file flags n Hg He Lg Le Hf size Hs Ht Wh Wd Hn.
  assert (Hg0 : given <> []) by (intros ->; discriminate Wh).
  unfold write_dataset in Wd. rewrite (write_header_ok _ _ Hg0) in Wh, Wd. injection Wh as Wh. cbn [obind] in Wd.
  rewrite (write_rows_none hp _ _ _ Hf) in Wd. cbn [obind fst snd] in Wd.
  assert (Ef : file = header_bytes given expected ++ concat (map row_body rs)) by congruence. clear Wd. subst file header.
  assert (Lb : length (concat (map row_body rs)) = (length rs * N.to_nat size)%nat).
  { clear - Hf. induction Hf as [|r l Hr _ IH]; [reflexivity|]. cbn [map concat length]. rewrite app_length, IH, (row_body_length _ _ _ Hr). lia. }
  rewrite app_length in Hn. cbv zeta. set (k := (n - length (header_bytes given expected))%nat).
  assert (Hk : (k <= length (concat (map row_body rs)))%nat) by lia.
  destruct (read_cut given expected rs k px ren Hg He Lg Le Hf Hs) as (d & E & E1 & E2 & E3 & E4 & E5); [rewrite Lb; nia|exact Hk|].
  exists d. rewrite firstn_app. rewrite firstn_all2 by lia. fold k. split; [exact E|]. split; [exact E1|]. split; [exact E2|].
  split; [exact E3|]. split.
  { rewrite Lb in Hk. fold size. apply N.le_trans with ((N.of_nat (length rs) * size) / size); [apply N.div_le_mono; nia|rewrite N.div_mul by lia; lia]. }
  split; [exact E5|exact E4].
Qed.
Print Assumptions dataset_cut_after_header.

(** Concrete data for the examples: one number column, one label column. *)
Definition num_meta : meta := {| purpose := 78; is_standardized := false; mean := 0; standard_deviation := 0x3F800000;
  is_normalized := true; min_value := 0xC0000000; max_value := 0x40000000; source_column_count := 1;
  rows := 1; columns := 1; channels := 1; ordered_labels := []; name := [120] |}.
Definition label_meta : meta := {| purpose := 76; is_standardized := false; mean := 0; standard_deviation := 0x3F800000;
  is_normalized := false; min_value := 0; max_value := 0; source_column_count := 1;
  rows := 1; columns := 2; channels := 1; ordered_labels := [[110;111]; [121;101;115]]; name := [121; 49; 50; 51] |}.
Definition two_rows : list (list (list (list (list N))) * list (list (list (list N)))) :=
  [([[[[0x3F000000]]]], [[[[0; 0x3F800000]]]]); ([[[[0xBF000000]]]], [[[[0x3F800000; 0]]]])].

Example dataset_file_ex :
  Forall fits [num_meta] /\ Forall fits [label_meta] /\ Forall (row_fits [num_meta] [label_meta]) two_rows /\
  bytes_per_row [num_meta; label_meta] = 12 /\
  exists file, write_dataset (fun _ => 5) 0 [num_meta] [label_meta] two_rows = Ok (file, [true; true]) /\ length file = 200%nat.
Proof.
  split; [|split; [|split; [|split]]].
  - repeat constructor.
  - repeat constructor.
  - repeat constructor.
  - reflexivity.
  - eexists. vm_compute. split; reflexivity.
Qed.

(** Finding: rows whose given tensors have equal keys are dropped although their expected values
    differ; equal printed forms (15 decimals) are enough for equal keys. *)
Theorem writer_keeps_different_rows_refuted :
  forall hp, let r := ([[[[0x3F000000]]]], [[[[0x3F800000; 0]]]]) in let r' := ([[[[0x3F000000]]]], [[[[0; 0x3F800000]]]]) in
    r <> r' /\ exists file, write_dataset hp 100 [num_meta] [label_meta] [r; r'] = Ok (file, [true; false]).
Proof.
  intros hp r r'. split; [discriminate|].
  destruct (writer_deduplicates hp 100 [num_meta] [label_meta] [r; r']) as (file & E & _); [apply Nat.lt_0_succ|discriminate|repeat constructor|].
  exists file. rewrite E. do 2 f_equal. cbn [map fst r r']. set (k := compute_given_hash hp _). clearbody k. cbn [fresh_flags firstn].
  destruct (in_dec N.eq_dec k []) as [[]|_]. cbn [firstn]. destruct (in_dec N.eq_dec k [k]) as [_|H]; [reflexivity|]. exfalso. apply H. now left.
Qed.
Print Assumptions writer_keeps_different_rows_refuted.

(** Finding: a file cut inside its header can open without an error, report rows, and reading
    them is undefined. *)
Theorem dataset_cut_in_header_refuted :
  exists file n d, write_dataset (fun _ => 5) 0 [num_meta] [label_meta] [] = Ok (file, []) /\ (n < length file)%nat /\
    open_dataset (firstn n file) = Ok d /\ 0 < number_of_rows d /\ read_row (fun x => x) (fun t _ _ => t) [] [] d 0 = UB.
Proof.
  destruct (write_dataset (fun _ => 5) 0 [num_meta] [label_meta] []) as [[file flags]| |] eqn:E; [|vm_compute in E; discriminate..].
  vm_compute in E. injection E as <- <-. eexists _, 175%nat, _. split; [reflexivity|]. split; [cbn; lia|]. split; [vm_compute; reflexivity|]. split; reflexivity.
Qed.
Print Assumptions dataset_cut_in_header_refuted.

(** Finding: rows of size 0 (some dimension 0 in every column) make opening the file divide by 0. *)
Theorem dataset_zero_size_rows_refuted :
  exists m file flags, fits m /\ write_dataset (fun _ => 5) 0 [m] [] [] = Ok (file, flags) /\ open_dataset file = UB.
Proof.
  exists {| purpose := 78; is_standardized := false; mean := 0; standard_deviation := 0; is_normalized := false; min_value := 0;
    max_value := 0; source_column_count := 1; rows := 1; columns := 0; channels := 1; ordered_labels := []; name := [] |}.
  eexists _, _. split; [repeat constructor|]. split; [vm_compute; reflexivity|]. vm_compute. reflexivity.
Qed.
Print Assumptions dataset_zero_size_rows_refuted.

(** Finding: when values are to be re-scaled to another data set, every given column uses the
    other data set's first column. *)
Theorem renormalise_own_column_refuted :
  forall to_pixel ren m1 m2 other1 other2 t1 t2 rest, shaped m1 t1 -> shaped m2 t2 ->
    load_columns to_pixel ren 0 [other1; other2] [m1; m2] (body_bytes t1 ++ body_bytes t2 ++ rest) =
      Ok ([ren (in_memory to_pixel m1 t1) m1 other1; ren (in_memory to_pixel m2 t2) m2 other1], rest).
Proof.
  intros px ren m1 m2 o1 o2 t1 t2 rest H1 H2.
  pose proof (load_columns_renorm px ren o1 [o2] [m1; m2] [t1; t2] rest) as L. cbn [map concat] in L. rewrite app_nil_r, <- app_assoc in L.
  rewrite L by (constructor; [exact H1|constructor; [exact H2|constructor]]). reflexivity.
Qed.
Print Assumptions renormalise_own_column_refuted.
