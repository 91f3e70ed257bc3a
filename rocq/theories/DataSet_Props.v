(** C27, C28 - epochs and the train/test split. *)
From Coq Require Import List Bool Arith NArith ZArith Lia Permutation Reals Lra.
From Flocq Require Import IEEE754.Binary IEEE754.Bits.
From Verif Require Import Outcome TensorFile_Model TensorFile_Proofs F32_Model F32_Proofs DataSet_Model DataSet_Spec DataSet_Proofs.
Import ListNotations.
Open Scope nat_scope.

(** The records between [first] and [first + count]. *)
Definition slice {A} (first count : nat) (l : list A) : list A := firstn count (skipn first l).

Lemma slice_nth {A} (l : list A) d first count : first + count <= length l ->
  map (fun i => nth (i + first) l d) (seq 0 count) = slice first count l.
Proof.
  intro H. unfold slice.
  transitivity (map (fun i => nth i (firstn count (skipn first l)) d) (seq 0 (length (firstn count (skipn first l))))); [|apply nth_seq_map].
  rewrite firstn_length, skipn_length, Nat.min_l by lia. apply map_ext_in. intros i Hi. apply in_seq in Hi.
  rewrite <- (firstn_skipn first l) at 1. rewrite app_nth2 by (rewrite firstn_length; lia).
  rewrite firstn_length, Nat.min_l by lia. replace (i + first - first) with i by lia.
  set (m := skipn first l). rewrite <- (firstn_skipn count m) at 1. rewrite app_nth1; [reflexivity|].
  unfold m. rewrite firstn_length, skipn_length. lia.
Qed.

(** C27: a shuffler, after any shuffles, is asked about every index once and never out of range. *)
Theorem shuffler_orders : forall n perms, Forall (fun p => forall l, Permutation l (p l)) perms ->
  let sh := fold_left (fun l p => shuffle p l) perms (new_shuffler n) in
  reachable_order n sh /\ (forall i, i < n -> exists j, getShuffledIndex sh i = Ok j /\ j < n) /\
  (forall j, j < n -> exists i, i < n /\ getShuffledIndex sh i = Ok j) /\
  (forall i i' j, getShuffledIndex sh i = Ok j -> getShuffledIndex sh i' = Ok j -> i = i').
Proof.
  intros n perms F. cbv zeta. set (sh := fold_left _ _ _).
  assert (R : reachable_order n sh).
  { subst sh. assert (G : reachable_order n (new_shuffler n)) by constructor. revert G. generalize (new_shuffler n). induction F as [|p perms Hp F IH]; intros l G; [exact G|]. cbn [fold_left]. apply IH. eapply order_shuffled; [exact G|apply Hp]. }
  split; [exact R|]. apply reachable_perm in R. clearbody sh. clear F. pose proof (Permutation_length R) as L. rewrite seq_length in L. unfold getShuffledIndex, vec_at. split; [|split].
  - intros i Hi. destruct (nth_error sh i) as [j|] eqn:E; [|apply nth_error_None in E; lia]. exists j. split; [reflexivity|]. apply nth_error_In in E. apply (Permutation_in _ (Permutation_sym R)) in E. apply in_seq in E. lia.
  - intros j Hj. assert (I : In j sh) by (eapply Permutation_in; [exact R|]; apply in_seq; lia). apply In_nth_error in I as [i E]. exists i. split; [rewrite L; apply nth_error_Some; congruence|]. now rewrite E.
  - intros i i' j E E'. destruct (nth_error sh i) as [x|] eqn:X; [|discriminate]. destruct (nth_error sh i') as [x'|] eqn:X'; [|discriminate]. injection E as ->. injection E' as ->.
    assert (N : NoDup sh) by (eapply Permutation_NoDup; [exact R|apply seq_NoDup]). eapply NoDup_nth_error; [exact N|apply nth_error_Some; congruence|congruence].
Qed.
Print Assumptions shuffler_orders.

(** C27: an in-memory data set, without a shuffler or with one in any state it can reach, yields
    every record exactly once and then null (for any number of calls). *)
Theorem in_memory_epoch :
  forall A (pairs : list A) sh fuel,
    (sh = None \/ exists l, sh = Some l /\ reachable_order (length pairs) l) -> length pairs < fuel ->
    exists visited, drain (next_in_memory pairs sh) fuel 0 = Ok visited /\ Permutation pairs visited.
Proof.
  intros A pairs sh fuel Hsh Hf. destruct pairs as [|d r] eqn:Ep.
  - exists []. destruct fuel as [|f]; [inversion Hf|]. split; [reflexivity|constructor].
  - rewrite <- Ep in *. clear Ep r.
    assert (H : Permutation (seq 0 (length pairs)) (order_of sh (length pairs))).
    { destruct Hsh as [->|(l & -> & Hl)]; [reflexivity|]. now apply reachable_perm. }
    exists (map (fun i => nth i pairs d) (order_of sh (length pairs))). split; [now apply epoch_in_memory|].
    rewrite <- (Permutation_map _ H). now rewrite nth_seq_map.
Qed.
Print Assumptions in_memory_epoch.

(** C27: two data sets of the same size sharing one shuffler stay aligned. *)
Theorem shared_shuffler_epoch :
  forall A B (a : list A) (b : list B) l fuel, length a = length b -> reachable_order (length a) l -> length a < fuel ->
    exists va vb, drain (next_in_memory a (Some l)) fuel 0 = Ok va /\ drain (next_in_memory b (Some l)) fuel 0 = Ok vb /\
      Permutation (combine a b) (combine va vb).
Proof.
  intros A B a b l fuel Hl Hr Hf. apply reachable_perm in Hr. destruct a as [|da ra] eqn:Ea; destruct b as [|db rb] eqn:Eb; try discriminate.
  - exists [], []. destruct fuel as [|f]; [inversion Hf|]. repeat split; constructor.
  - rewrite <- Ea, <- Eb in *. clear Ea Eb ra rb.
    exists (map (fun i => nth i a da) l), (map (fun i => nth i b db) l).
    split; [apply (epoch_in_memory a da (Some l)); assumption|].
    split; [apply (epoch_in_memory b db (Some l)); cbn [order_of]; rewrite <- Hl; assumption|].
    assert (E : combine (map (fun i => nth i a da) l) (map (fun i => nth i b db) l) = map (fun i => nth i (combine a b) (da, db)) l).
    { clear - Hl. induction l as [|x l IH]; [reflexivity|]. cbn [map combine]. rewrite IH. f_equal. symmetry. now apply combine_nth. }
    rewrite E. rewrite <- (Permutation_map _ Hr). replace (length a) with (length (combine a b)) by (rewrite combine_length; lia).
    now rewrite nth_seq_map.
Qed.
Print Assumptions shared_shuffler_epoch.

(** C27: a data set over a file yields exactly the records of its part of the file, once each. *)
Theorem binary_epoch :
  forall A (b : binary_set A) sh fuel,
    (sh = None \/ exists l, sh = Some l /\ reachable_order (record_count b) l) ->
    reachable_order (length (file_rows b)) (split_shuffler b) ->
    first_record_offset b + record_count b <= length (file_rows b) -> record_count b < fuel ->
    exists visited, drain (next_binary b sh) fuel 0 = Ok visited /\
      Permutation (slice (first_record_offset b) (record_count b) (file_rows b)) visited.
Proof.
  intros A b sh fuel Hsh Hs Hr Hf. apply reachable_perm in Hs. apply Permutation_length in Hs. rewrite seq_length in Hs.
  destruct (file_rows b) as [|d r] eqn:Ep.
  - cbn in Hr. exists []. destruct fuel as [|f]; [inversion Hf|]. cbn [drain]. unfold next_binary.
    replace (Nat.leb (record_count b) 0) with true by (symmetry; apply Nat.leb_le; lia). split; [reflexivity|].
    unfold slice. rewrite skipn_nil, firstn_nil. constructor.
  - rewrite <- Ep in *. clear Ep r.
    assert (H : Permutation (seq 0 (record_count b)) (order_of sh (record_count b))).
    { destruct Hsh as [->|(l & -> & Hl)]; [reflexivity|]. now apply reachable_perm. }
    exists (map (fun i => nth (i + first_record_offset b) (file_rows b) d) (order_of sh (record_count b))).
    split; [now apply epoch_binary|].
    rewrite <- (Permutation_map _ H). now rewrite slice_nth.
Qed.
Print Assumptions binary_epoch.

(** C28: for every number of rows and every split [s] between 0 and 1, the training part is the
    first [k] rows and the test part (opened with [t] such that 1 + t = s in float arithmetic)
    exactly the others. *)
Theorem split_partition :
  forall n s t, (n < 2 ^ 64)%N -> finite s = true -> finite t = true ->
    (0 < B2R 24 128 s < 1)%R -> (B2R 24 128 t <= 0)%R -> to_bits (fadd (of_Z 1) t) = to_bits s ->
    exists k, (k <= n)%N /\ split_range n s = Ok (0, k)%N /\ split_range n t = Ok (k, n - k)%N.
Proof.
  intros n s t Hn Fs Ft Hs Ht E. apply to_bits_inj in E. apply split_pair; try assumption; now rewrite E.
Qed.
Print Assumptions split_partition.

(** C28: the split the task search uses, 0.9 (bits 0x3F666666) and -0.1 (0xBDCCCCCD). *)
Theorem split_nine_to_one :
  forall n, (n < 2 ^ 64)%N ->
    exists k, (k <= n)%N /\ split_range n (of_bits 0x3F666666) = Ok (0, k)%N /\
      split_range n (of_bits 0xBDCCCCCD) = Ok (k, n - k)%N.
Proof.
  intros n Hn. apply split_partition; [exact Hn|reflexivity|reflexivity| | |vm_compute; reflexivity].
  - change (B2R 24 128 (of_bits 0x3F666666)) with (IZR 15099494 * / IZR (Z.pow_pos 2 24))%R. cbn. lra.
  - change (B2R 24 128 (of_bits 0xBDCCCCCD)) with (IZR (-13421773) * / IZR (Z.pow_pos 2 27))%R. cbn. lra.
Qed.
Print Assumptions split_nine_to_one.

(** Finding: with the default split 1.0 a file of 2^24 + 3 rows is taken to have 2^24 + 4. *)
Theorem split_whole_file_refuted :
  split_range 16777219 (of_bits 0x3F800000) = Ok (0, 16777220)%N.
Proof. vm_compute. reflexivity. Qed.
Print Assumptions split_whole_file_refuted.

(** ... and reading the record after the last row is undefined. *)
Theorem read_past_rows_undefined :
  forall A (b : binary_set A) sh, length (split_shuffler b) = length (file_rows b) -> length (file_rows b) < record_count b ->
    sh = None -> next_binary b sh (length (file_rows b)) = UB.
Proof.
  intros A b sh Hs Hr ->. unfold next_binary. replace (Nat.leb (record_count b) (length (file_rows b))) with false by (symmetry; apply Nat.leb_gt; exact Hr).
  cbn [shuffled_offset obind]. unfold getShuffledIndex, vec_at. rewrite <- Hs. now rewrite (proj2 (nth_error_None _ _) (le_n _)).
Qed.
Print Assumptions read_past_rows_undefined.

(** Finding: the search for a model opens the file with [r] and [-r]: for r = 0.75 and 1000 rows
    the training part [0, 750) and the test part [250, 1000) share 500 rows. *)
Theorem search_split_disjoint_refuted :
  split_range 1000 (of_bits 0x3F400000) = Ok (0, 750)%N /\ split_range 1000 (of_bits 0xBF400000) = Ok (250, 750)%N.
Proof. vm_compute. split; reflexivity. Qed.
Print Assumptions search_split_disjoint_refuted.

(** Finding: the rows of a split are never mixed: with sorted rows the test part of a file holds
    only the largest (the second shuffler is consulted but its result unused). *)
Theorem split_mixed_refuted :
  forall A (b : binary_set A) o p, next_binary b None o = Ok p -> o < record_count b ->
    fst p = nth_error (file_rows b) (o + first_record_offset b).
Proof.
  intros A b o p. unfold next_binary. destruct (Nat.leb (record_count b) o) eqn:E; [apply Nat.leb_le in E; lia|].
  cbn [shuffled_offset obind]. destruct (getShuffledIndex (split_shuffler b) o); cbn [obind]; try discriminate.
  unfold at_. destruct (nth_error (file_rows b) (o + first_record_offset b)); cbn [obind]; try discriminate.
  intros H _. injection H as <-. reflexivity.
Qed.
Print Assumptions split_mixed_refuted.

Example data_set_ex :
  let b := {| file_rows := [10; 11; 12; 13; 14]; split_shuffler := [2; 0; 1; 4; 3]; first_record_offset := 2; record_count := 3 |} in
  drain (next_binary b (Some [1; 2; 0])) 10 0 = Ok [13; 14; 12] /\
  reachable_order 3 [1; 2; 0] /\
  split_range 891 (of_bits 0x3F666666) = Ok (0, 801)%N /\ split_range 891 (of_bits 0xBDCCCCCD) = Ok (801, 90)%N.
Proof.
  cbv zeta. split; [reflexivity|]. split; [|vm_compute; split; reflexivity].
  apply (order_shuffled 3 [0; 1; 2]); [apply order_new|]. change [0; 1; 2] with ([0] ++ [1; 2]). change [1; 2; 0] with ([1; 2] ++ [0]). apply Permutation_app_comm.
Qed.
