From Coq Require Import List Bool Arith NArith Lia Permutation Sorted.
From Verif Require Import Outcome TensorFile_Proofs Columns_Model Columns_Spec.
Import ListNotations.
Open Scope N_scope.

Lemma end_index g : proper g -> (start_index g + source_column_count g + (2 ^ 64 - 1)) mod 2 ^ 64 = start_index g + source_column_count g - 1.
Proof.
  intros [H1 H2]. replace (start_index g + source_column_count g + (2 ^ 64 - 1)) with (start_index g + source_column_count g - 1 + 1 * 2 ^ 64) by lia.
  rewrite N.mod_add by discriminate. apply N.mod_small. lia.
Qed.

Lemma two_of_perm l l' a b : Permutation l l' -> two_of l a b -> two_of l' a b.
Proof.
  intros P H.
  assert (G : forall l l' a b, Permutation l l' -> (exists x y z, l = x ++ a :: y ++ b :: z) -> two_of l' a b).
  { clear. intros l l' a b P (x & y & z & E). rewrite E in P.
    assert (Ha : In a l') by (apply (Permutation_in _ P); apply in_or_app; right; left; reflexivity).
    apply in_split in Ha as (l1 & l2 & E'). subst l'. 
    assert (P2 : Permutation (x ++ y ++ b :: z) (l1 ++ l2)) by (apply (Permutation_app_inv x (y ++ b :: z) l1 l2 a P)).
    assert (Hb : In b (l1 ++ l2)). { apply (Permutation_in _ P2). apply in_or_app. right. apply in_or_app. right. left. reflexivity. }
    apply in_app_or in Hb as [Hb|Hb]; apply in_split in Hb as (m1 & m2 & ->).
    - exists m1, m2, l2. right. rewrite <- app_assoc. reflexivity.
    - exists l1, m1, m2. left. reflexivity. }
  destruct H as (x & y & z & [E|E]).
  - apply (G l l' a b P). eauto.
  - destruct (G l l' b a P) as (x' & y' & z' & [E'|E']); [eauto| |]; exists x', y', z'; auto.
Qed.

Lemma overlap_sound gs : Forall proper gs -> StronglySorted (fun a b => start_index a <= start_index b) gs -> has_overlap gs = true ->
  exists a b c, two_of gs a b /\ covers a c /\ covers b c.
Proof.
  induction gs as [|p gs IH]; intros Hp Hs H; [discriminate|]. destruct gs as [|q gs]; [discriminate|].
  inversion Hp as [|? ? Hp1 Hp2]; subst. inversion Hs as [|? ? Hs1 Hs2]; subst. cbn [has_overlap] in H. rewrite (end_index p Hp1) in H.
  apply orb_true_iff in H as [H|H].
  - apply N.ltb_lt in H. inversion Hs2; subst. inversion Hp2 as [|? ? [Hq1 Hq2] _]; subst. exists p, q, (start_index q). split.
    + exists [], [], gs. now left.
    + destruct Hp1. unfold covers. lia.
  - destruct (IH Hp2 Hs1 H) as (a & b & c & (l & m & r & E) & Hc). exists a, b, c. split; [|exact Hc].
    exists (p :: l), m, r. destruct E as [E|E]; [left|right]; cbn [app]; now rewrite E.
Qed.

(** A later group starting before the end of an earlier one is noticed. *)
Lemma overlap_found l : forall a m b r gs, gs = l ++ a :: m ++ b :: r -> Forall proper gs ->
  StronglySorted (fun a b => start_index a <= start_index b) gs ->
  start_index b < start_index a + source_column_count a - 1 -> has_overlap gs = true.
Proof.
  induction l as [|p l IH]; intros a m b r gs E Hp Hs H.
  - cbn [app] in E. subst gs. inversion Hp as [|? ? Hp1 Hp2]; subst. inversion Hs as [|? ? Hs1 Hs2]; subst.
    destruct m as [|q m]; cbn [app] in *; cbn [has_overlap]; rewrite (end_index a Hp1); apply orb_true_iff; left; apply N.ltb_lt; [exact H|].
    inversion Hs1 as [|? ? Hq1 Hq2]; subst. rewrite Forall_forall in Hq2. specialize (Hq2 b).
    assert (start_index q <= start_index b) by (apply Hq2; apply in_or_app; right; left; reflexivity). lia.
  - subst gs. inversion Hp as [|? ? Hp1 Hp2]; subst. inversion Hs as [|? ? Hs1 Hs2]; subst.
    specialize (IH a m b r _ eq_refl Hp2 Hs1 H). destruct (l ++ a :: m ++ b :: r) as [|q t] eqn:E; [destruct l; discriminate|].
    cbn [app]. rewrite E. cbn [has_overlap]. cbn [has_overlap] in IH. rewrite IH. apply orb_true_r.
Qed.

Lemma overlap_complete sort gs a b c : sorts sort -> Forall proper gs -> two_of gs a b ->
  covers a c /\ covers b c -> covers a (c + 1) /\ covers b (c + 1) -> has_overlap (sort gs) = true.
Proof.
  intros Hs Hp Ht H1 H2. destruct (Hs gs) as [P S]. apply (two_of_perm _ _ _ _ P) in Ht. 
  assert (Hp' : Forall proper (sort gs)) by (now rewrite <- P).
  unfold covers in *. destruct Ht as (l & m & r & [E|E]); eapply overlap_found; try eassumption; lia.
Qed.

(** ** Reorganisation *)
Definition picked {A} (record : list A) (g : group) : list A :=
  firstn (N.to_nat (source_column_count g)) (skipn (N.to_nat (start_index g)) record).

Lemma group_columns_ok {A} (record : list A) g : N.of_nat (length record) < 2 ^ 64 ->
  start_index g + source_column_count g <= N.of_nat (length record) -> group_columns record g = Ok (picked record g).
Proof.
  intros HL H. unfold group_columns, picked. destruct record as [|d rec'] eqn:Er.
  - cbn in H. replace (source_column_count g) with 0 by lia. reflexivity.
  - rewrite <- Er in *. clear Er rec'. rewrite (omapM_ok _ (fun i => nth i (skipn (N.to_nat (start_index g)) record) d)).
    + f_equal. set (t := skipn (N.to_nat (start_index g)) record). set (n := N.to_nat (source_column_count g)).
      assert (L : (n <= length t)%nat) by (unfold t, n; rewrite skipn_length; lia). clearbody t n. clear - L.
      revert t L. induction n as [|n IH]; intros t L; [reflexivity|]. destruct t as [|x t]; [cbn in L; lia|].
      cbn [seq map nth firstn]. f_equal. rewrite <- seq_shift, map_map. apply IH. cbn in L. lia.
    + intros i Hi. apply in_seq in Hi. rewrite N.mod_small by lia. unfold vec_at.
      rewrite (nth_error_nth' record d) by lia. f_equal. rewrite <- (firstn_skipn (N.to_nat (start_index g)) record) at 1.
      rewrite app_nth2 by (rewrite firstn_length; lia). f_equal. rewrite firstn_length. lia.
Qed.

Lemma picked_length {A} (record : list A) g : start_index g + source_column_count g <= N.of_nat (length record) ->
  N.of_nat (length (picked record g)) = source_column_count g.
Proof. intro H. unfold picked. rewrite firstn_length, skipn_length. lia. Qed.

Definition total (gs : list group) : N := fold_right (fun g acc => source_column_count g + acc) 0 gs.

Lemma reindex_picks {A} (record : list A) gs : forall (pre post : list A),
  Forall (fun g => start_index g + source_column_count g <= N.of_nat (length record)) gs ->
  N.of_nat (length pre) + total gs < 2 ^ 64 ->
  Forall2 (fun g u => picked (pre ++ concat (map (picked record) gs) ++ post) u = picked record g /\
                      source_column_count u = source_column_count g /\ expected_use u = expected_use g /\ group_id u = group_id g /\
                      start_index u + source_column_count u <= N.of_nat (length (pre ++ concat (map (picked record) gs) ++ post)))
    gs (reindex (N.of_nat (length pre)) gs).
Proof.
  induction gs as [|g gs IH]; intros pre post Hf Ht; cbn [reindex]; [constructor|].
  inversion Hf as [|? ? Hg Hf']; subst. cbn [total fold_right] in Ht. fold (total gs) in Ht.
  pose proof (picked_length record g Hg) as L. constructor.
  - cbn [start_index source_column_count expected_use group_id]. split; [|split; [reflexivity|split; [reflexivity|split; [reflexivity|]]]].
    + unfold picked at 1. cbn [start_index source_column_count]. rewrite Nat2N.id. cbn [map concat].
      rewrite skipn_app, skipn_all, Nat.sub_diag. cbn [app skipn]. rewrite <- app_assoc.
      rewrite firstn_app. replace (N.to_nat (source_column_count g)) with (length (picked record g)) by lia.
      rewrite Nat.sub_diag, firstn_all, firstn_O. apply app_nil_r.
    + cbn [map concat]. rewrite !app_length. lia.
  - rewrite N.mod_small by lia. specialize (IH (pre ++ picked record g) post Hf').
    replace (N.of_nat (length pre) + source_column_count g) with (N.of_nat (length (pre ++ picked record g))) by (rewrite app_length; lia).
    cbn [map concat]. 
    replace (pre ++ (picked record g ++ concat (map (picked record) gs)) ++ post) with ((pre ++ picked record g) ++ concat (map (picked record) gs) ++ post)
      by (rewrite <- !app_assoc; reflexivity).
    apply IH. rewrite app_length. lia.
Qed.

Lemma new_record_ok {A} (given expected : list group) (record : list A) : N.of_nat (length record) < 2 ^ 64 ->
  Forall (fun g => start_index g + source_column_count g <= N.of_nat (length record)) (given ++ expected) ->
  new_record given expected record = Ok (concat (map (picked record) (given ++ expected))).
Proof.
  intros HL Hf. apply Forall_app in Hf as [H1 H2]. unfold new_record.
  rewrite (omapM_ok _ (picked record)) by (intros g Hg; rewrite Forall_forall in H1; now apply group_columns_ok, H1).
  cbn [obind]. rewrite (omapM_ok _ (picked record)) by (intros g Hg; rewrite Forall_forall in H2; now apply group_columns_ok, H2).
  cbn [obind]. now rewrite map_app, concat_app.
Qed.
