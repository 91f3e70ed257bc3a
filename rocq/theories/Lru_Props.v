(** C22 - the recent-key cache. *)
From Coq Require Import List Bool Arith NArith Permutation.
From Verif Require Import Outcome Lru_Model Lru_Spec Lru_Proofs.
Import ListNotations.

(** C22: used as the dataset writer does (insert only what is not contained), for every capacity
    above 0 and every key sequence: never undefined; a key is reported as new exactly when it is
    not among the last [c] keys reported new before; in the end exactly the last [c] such keys
    are contained; the capacity is never exceeded. *)
Theorem lru_check_then_insert :
  forall c ks, 0 < c ->
    exists s, touch_all (new_lru c) ks = Ok (s, fresh_flags c [] ks) /\
      let inserted := chosen (fresh_flags c [] ks) ks in
      (forall k, contains s k = true <-> In k (firstn c (rev inserted))) /\
      NoDup (firstn c (rev inserted)) /\
      length (cache_map s) <= c /\ length (lru_list s) <= c.
Proof.
  intros c ks Hc. destruct (touch_all_spec c ks [] (new_lru c) Hc (holds_new c)) as (s & E & [H1 H2 H3 H4]).
  exists s. split; [exact E|]. cbv zeta. rewrite remembered_chosen, app_nil_r in *.
  split; [|split; [exact H4|split]].
  - intro k. unfold contains. rewrite mem_spec. split; apply Permutation_in; [exact H3|now apply Permutation_sym].
  - rewrite (Permutation_length H3). apply firstn_le_length.
  - rewrite H2. apply firstn_le_length.
Qed.
Print Assumptions lru_check_then_insert.

(** Finding: with capacity 0 the first insertion reads the back of an empty list. *)
Theorem lru_zero_capacity_refuted : forall k, insert (new_lru 0) k = UB.
Proof. reflexivity. Qed.
Print Assumptions lru_zero_capacity_refuted.

(** Finding: inserting a contained key leads to more entries than the capacity. *)
Theorem lru_capacity_any_use_refuted :
  exists s, (do a <- insert (new_lru 2) 1%N; do b <- insert a 1%N; do c <- insert b 2%N;
             do d <- insert c 3%N; insert d 4%N) = Ok s /\ capacity s < length (cache_map s).
Proof. eexists. split; [reflexivity|]. apply le_n. Qed.
Print Assumptions lru_capacity_any_use_refuted.

Example lru_ex :
  touch_all (new_lru 2) [1; 2; 1; 3; 1]%N =
    Ok ({| capacity := 2; lru_list := [1; 3]%N; cache_map := [1; 3]%N |}, [true; true; false; true; true]).
Proof. reflexivity. Qed.
