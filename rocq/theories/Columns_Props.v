(** C29, C30: column groups of a dataset. *)
From Coq Require Import List Bool Arith NArith Lia Permutation Sorted.
From Verif Require Import Outcome Columns_Model Columns_Spec Columns_Proofs.
Import ListNotations.
Open Scope N_scope.

Definition grp (s c : N) (e : bool) (i : N) : group := {| start_index := s; source_column_count := c; expected_use := e; group_id := i |}.

(** C29: a reported overlap is a real one. *)
Theorem overlap_report_sound : forall sort gs, sorts sort -> Forall proper gs ->
  snd (sort_and_check_overlaps sort gs) = true ->
  exists a b c, two_of gs a b /\ covers a c /\ covers b c.
Proof.
  intros sort gs Hs Hp H. destruct (Hs gs) as [P S]. cbn in H.
  assert (Hp' : Forall proper (sort gs)) by now rewrite <- P.
  destruct (overlap_sound _ Hp' S H) as (a & b & c & Ht & Hc). exists a, b, c. split; [|exact Hc].
  now apply (two_of_perm (sort gs) gs a b (Permutation_sym P)).
Qed.
Print Assumptions overlap_report_sound.

(** C29, other direction, as far as it holds: two groups with two adjacent columns in common are
    reported, wherever they stand in the list. *)
Theorem overlap_of_two_columns_reported_partial : forall sort gs a b c, sorts sort -> Forall proper gs -> two_of gs a b ->
  covers a c /\ covers b c -> covers a (c + 1) /\ covers b (c + 1) -> snd (sort_and_check_overlaps sort gs) = true.
Proof. intros. cbn [sort_and_check_overlaps snd]. eapply overlap_complete with (c := c); eassumption. Qed.
Print Assumptions overlap_of_two_columns_reported_partial.

(** Finding: groups that share exactly one column pass the check, whatever the sort does with ties. *)
Theorem overlap_of_one_column_refuted : exists gs a b c, Forall proper gs /\ two_of gs a b /\ covers a c /\ covers b c /\
  forall sort, sorts sort -> snd (sort_and_check_overlaps sort gs) = false.
Proof.
  exists [grp 0 3 false 0; grp 2 1 true 1], (grp 0 3 false 0), (grp 2 1 true 1), 2.
  split; [repeat constructor; cbn; lia|]. split; [exists [], [], []; left; reflexivity|].
  split; [unfold covers; cbn; lia|]. split; [unfold covers; cbn; lia|].
  intros sort Hs. destruct (Hs [grp 0 3 false 0; grp 2 1 true 1]) as [P S]. cbn [sort_and_check_overlaps snd].
  apply Permutation_length_2_inv in P as [E|E]; rewrite E in *.
  - vm_compute. reflexivity.
  - inversion S as [|? ? _ F]; subst. inversion F as [|? ? F1 _]; subst. cbn in F1. lia.
Qed.
Print Assumptions overlap_of_one_column_refuted.

(** Finding: an empty group at column 0 is reported as overlapping although it has no column. *)
Theorem overlap_empty_group_refuted : exists gs, has_overlap gs = true /\ StronglySorted (fun a b => start_index a <= start_index b) gs /\
  ~ exists a b c, two_of gs a b /\ covers a c /\ covers b c.
Proof.
  exists [grp 0 0 false 0; grp 5 2 true 1]. split; [vm_compute; reflexivity|]. split; [repeat constructor; cbn; lia|].
  intros (a & b & c & (l & m & r & E) & Ha & Hb).
  assert (H : forall x y l m r, [grp 0 0 false 0; grp 5 2 true 1] = l ++ x :: m ++ y :: r -> x = grp 0 0 false 0).
  { clear. intros x y l m r E. destruct l as [|? [|? l]]; cbn in E; [now injection E| |]; exfalso; apply (f_equal (@length _)) in E;
    cbn in E; rewrite ?app_length in E; cbn in E; rewrite ?app_length in E; cbn in E; lia. }
  destruct E as [E|E]; apply H in E; subst; unfold covers in *; cbn in *; lia.
Qed.
Print Assumptions overlap_empty_group_refuted.

(** C30: after a record is reorganised, each group reads at its new position the values it had in
    the source record; inputs come before expected outputs and nothing else is in the record. *)
Theorem columns_moved_keep_values : forall A (gs : list group) (record : list A),
  N.of_nat (length record) < 2 ^ 64 ->
  Forall (fun g => 1 <= source_column_count g /\ start_index g + source_column_count g <= N.of_nat (length record)) gs ->
  fold_right (fun g acc => source_column_count g + acc) 0 gs < 2 ^ 64 ->
  exists record', new_record (given_groups gs) (expected_groups gs) record = Ok record' /\
    Forall2 (fun g u => group_id u = group_id g /\ expected_use u = expected_use g /\
                        column_data record' u = column_data record g /\ (exists v, column_data record g = Ok v /\ N.of_nat (length v) = source_column_count g))
      (given_groups gs ++ expected_groups gs) (updated_groups gs) /\
    N.of_nat (length record') = fold_right (fun g acc => source_column_count g + acc) 0 gs.
Proof.
  intros A gs record HL Hf Ht.
  assert (P : Permutation (given_groups gs ++ expected_groups gs) gs).
  { clear. unfold given_groups, expected_groups. induction gs as [|g gs IH]; [reflexivity|]. cbn [filter].
    destruct (expected_use g); cbn [negb app].
    - rewrite <- Permutation_middle. now constructor.
    - now constructor. }
  assert (Hf' : Forall (fun g => 1 <= source_column_count g /\ start_index g + source_column_count g <= N.of_nat (length record)) (given_groups gs ++ expected_groups gs))
    by (rewrite P; exact Hf).
  assert (Hf2 : Forall (fun g => start_index g + source_column_count g <= N.of_nat (length record)) (given_groups gs ++ expected_groups gs))
    by (eapply Forall_impl; [|exact Hf']; intros ? [? ?]; assumption).
  assert (Ht' : total (given_groups gs ++ expected_groups gs) = total gs).
  { clear - P. unfold total. induction P; cbn; lia. }
  rewrite new_record_ok by assumption. eexists. split; [reflexivity|]. split.
  - unfold updated_groups. pose proof (reindex_picks record (given_groups gs ++ expected_groups gs) [] [] Hf2) as R.
    cbn [app length] in R. rewrite app_nil_r in R. specialize (R ltac:(rewrite Ht'; exact Ht)). change (N.of_nat 0) with 0 in R.
    revert Hf' R. generalize (concat (map (picked record) (given_groups gs ++ expected_groups gs))) as record'.
    generalize (reindex 0 (given_groups gs ++ expected_groups gs)) as us. generalize (given_groups gs ++ expected_groups gs) as l.
    intros l us record' Hf' R. induction R as [|g u l us (R1 & R2 & R3 & R4 & R5) R IH]; [constructor|].
    inversion Hf' as [|? ? [C1 C2] Hf'']; subst. constructor; [|now apply IH]. split; [exact R4|]. split; [exact R3|].
    assert (E : column_data record g = Ok (picked record g)).
    { unfold column_data. rewrite (proj2 (N.leb_gt _ _)) by lia. rewrite (proj2 (N.ltb_ge _ _)) by lia. reflexivity. }
    split.
    + rewrite E. unfold column_data. rewrite (proj2 (N.leb_gt _ _)) by lia. rewrite (proj2 (N.ltb_ge _ _)) by lia. f_equal. exact R1.
    + exists (picked record g). split; [exact E|now apply picked_length].
  - unfold total in Ht'. rewrite <- Ht'. revert Hf2. generalize (given_groups gs ++ expected_groups gs). clear. intros l H.
    induction H as [|g l Hg H IH]; [reflexivity|]. cbn [map concat fold_right]. rewrite app_length, Nat2N.inj_add, IH, picked_length by exact Hg. reflexivity.
Qed.
Print Assumptions columns_moved_keep_values.

(** Finding: a record shorter than a declared group is read out of bounds before any check. *)
Theorem short_record_undefined : forall A (gs : list group) (record : list A) g,
  In g (given_groups gs) -> start_index g + source_column_count g < 2 ^ 64 -> N.of_nat (length record) < start_index g + source_column_count g ->
  1 <= source_column_count g ->
  ~ exists r, new_record (given_groups gs) (expected_groups gs) record = Ok r.
Proof.
  intros A gs record g Hg H2 H3 H4 [r H]. unfold new_record in H. 
  destruct (omapM (group_columns record) (given_groups gs)) as [a| | ] eqn:E; try discriminate.
  assert (N1 : forall (B C : Type) (f : B -> outcome C) l v x, omapM f l = Ok v -> In x l -> exists y, f x = Ok y).
  { clear. intros B C f l. induction l as [|b l IH]; intros v x E Hx; [destruct Hx|]. cbn in E. destruct (f b) eqn:Eb; try discriminate.
    destruct (omapM f l) eqn:El; try discriminate. destruct Hx as [<-|Hx]; eauto. }
  destruct (N1 _ _ _ _ _ _ E Hg) as [y Ey]. unfold group_columns in Ey.
  destruct (N1 _ _ _ _ _ (N.to_nat (source_column_count g - 1)) Ey) as [z Ez]; [apply in_seq; lia|]. cbn beta in Ez.
  rewrite N.mod_small in Ez by lia. unfold vec_at in Ez. rewrite (proj2 (nth_error_None _ _)) in Ez by lia. discriminate.
Qed.
Print Assumptions short_record_undefined.

Example columns_ex :
  let gs := [grp 0 1 true 0; grp 1 2 false 1] in
  (has_overlap gs, new_record (given_groups gs) (expected_groups gs) [10; 20; 30], map start_index (updated_groups gs),
   has_overlap [grp 0 3 false 0; grp 1 2 true 1]) = (false, Ok [20; 30; 10], [0; 2], true) /\
  (new_record (given_groups gs) (expected_groups gs) [10; 20] = UB).
Proof. split; vm_compute; reflexivity. Qed.
