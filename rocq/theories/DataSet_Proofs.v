From Coq Require Import List Bool Arith NArith ZArith Lia Permutation Reals Lra.
From Flocq Require Import Core.Core IEEE754.Binary IEEE754.Bits.
From Verif Require Import Outcome TensorFile_Model TensorFile_Proofs F32_Model F32_Proofs DataSet_Model DataSet_Spec.
Import ListNotations.
Open Scope nat_scope.

Lemma reachable_perm n l : reachable_order n l <-> Permutation (seq 0 n) l.
Proof.
  split.
  - induction 1 as [|l l' _ IH H]; [reflexivity|]. now transitivity l.
  - intro H. eapply order_shuffled; [apply order_new|exact H].
Qed.

Lemma drain_gen {A} (next : nat -> outcome (option A * nat)) (d : A) (f : nat -> A) count :
  (forall o, (o < count)%nat -> next o = Ok (Some (f o), S o)) -> (forall o, (count <= o)%nat -> next o = Ok (None, o)) ->
  forall k o, (o + k = count)%nat -> forall fuel, (k < fuel)%nat -> drain next fuel o = Ok (map f (seq o k)).
Proof.
  intros H1 H2 k. induction k as [|k IH]; intros o E fuel Hf; (destruct fuel as [|fuel]; [lia|]); cbn [drain].
  - rewrite H2 by lia. reflexivity.
  - rewrite H1 by lia. cbn [obind fst snd]. rewrite (IH (S o)) by lia. reflexivity.
Qed.

Lemma order_nth n l o : Permutation (seq 0 n) l -> (o < n)%nat -> nth_error l o = Some (nth o l 0) /\ (nth o l 0 < n)%nat.
Proof.
  intros H Ho. assert (L : length l = n) by (rewrite <- (Permutation_length H); apply seq_length).
  split; [apply nth_error_nth'; lia|].
  assert (In (nth o l 0) (seq 0 n)) as Hin by (apply (Permutation_in _ (Permutation_sym H)); apply nth_In; lia).
  apply in_seq in Hin. lia.
Qed.

Lemma order_listing n l : Permutation (seq 0 n) l -> map (fun o => nth o l 0) (seq 0 n) = l.
Proof.
  intro H. assert (L : length l = n) by (rewrite <- (Permutation_length H); apply seq_length). subst n. apply nth_seq_map.
Qed.

Definition order_of (sh : option (list nat)) (n : nat) : list nat := match sh with Some l => l | None => seq 0 n end.

Lemma epoch_in_memory {A} (pairs : list A) (d : A) sh fuel : 
  Permutation (seq 0 (length pairs)) (order_of sh (length pairs)) -> (length pairs < fuel)%nat ->
  drain (next_in_memory pairs sh) fuel 0 = Ok (map (fun i => nth i pairs d) (order_of sh (length pairs))).
Proof.
  intros H Hf. set (n := length pairs) in *.
  rewrite (drain_gen (next_in_memory pairs sh) d (fun o => nth (nth o (order_of sh n) 0) pairs d) n) with (k := n); [| | |lia|exact Hf].
  - f_equal. rewrite <- (map_map (fun o => nth o (order_of sh n) 0) (fun i => nth i pairs d)). now rewrite (order_listing _ _ H).
  - intros o Ho. unfold next_in_memory. fold n. replace (Nat.leb n o) with false by (symmetry; apply Nat.leb_gt; exact Ho).
    destruct (order_nth _ _ _ H Ho) as [E1 E2].
    assert (E : shuffled_offset sh o = Ok (nth o (order_of sh n) 0)).
    { destruct sh as [l|]; cbn [order_of shuffled_offset] in *; unfold getShuffledIndex, vec_at; [now rewrite E1|]. now rewrite seq_nth by exact Ho. }
    rewrite E. cbn [obind]. rewrite (at_nth pairs _ d) by exact E2. reflexivity.
  - intros o Ho. unfold next_in_memory. fold n. replace (Nat.leb n o) with true by (symmetry; apply Nat.leb_le; exact Ho). reflexivity.
Qed.

Lemma epoch_binary {A} (b : binary_set A) (d : A) sh fuel :
  Permutation (seq 0 (record_count b)) (order_of sh (record_count b)) ->
  length (split_shuffler b) = length (file_rows b) ->
  (first_record_offset b + record_count b <= length (file_rows b))%nat -> (record_count b < fuel)%nat ->
  drain (next_binary b sh) fuel 0 = Ok (map (fun i => nth (i + first_record_offset b) (file_rows b) d) (order_of sh (record_count b))).
Proof.
  intros H Hs Hr Hf. set (n := record_count b) in *.
  rewrite (drain_gen (next_binary b sh) d (fun o => nth (nth o (order_of sh n) 0 + first_record_offset b) (file_rows b) d) n) with (k := n); [| | |lia|exact Hf].
  - f_equal. rewrite <- (map_map (fun o => nth o (order_of sh n) 0) (fun i => nth (i + first_record_offset b) (file_rows b) d)). now rewrite (order_listing _ _ H).
  - intros o Ho. unfold next_binary. fold n. replace (Nat.leb n o) with false by (symmetry; apply Nat.leb_gt; exact Ho).
    destruct (order_nth _ _ _ H Ho) as [E1 E2].
    assert (E : shuffled_offset sh o = Ok (nth o (order_of sh n) 0)).
    { destruct sh as [l|]; cbn [order_of shuffled_offset] in *; unfold getShuffledIndex, vec_at; [now rewrite E1|]. now rewrite seq_nth by exact Ho. }
    rewrite E. cbn [obind]. unfold getShuffledIndex, vec_at. rewrite (nth_error_nth' (split_shuffler b) 0%nat) by lia. cbn [obind].
    rewrite (at_nth _ _ d) by lia. reflexivity.
  - intros o Ho. unfold next_binary. fold n. replace (Nat.leb n o) with true by (symmetry; apply Nat.leb_le; exact Ho). reflexivity.
Qed.

(** ** The split in float arithmetic *)
Open Scope R_scope.

Lemma scaled_le n s : 0 <= n -> F32 s -> 0 <= s < 1 -> (n = 0 \/ 1 <= n) -> rnd (rnd n * s) <= n.
Proof.
  intros Hn Fs Hs [->|H1]; [rewrite rnd_0, Rmult_0_l, rnd_0; lra|].
  set (G := rnd n). set (D := round radix2 fexp32 Zfloor n).
  assert (HD : D <= n) by (apply round_DN_pt; auto with typeclass_instances).
  assert (FD : F32 D) by (apply generic_format_round; auto with typeclass_instances).
  assert (FG : F32 G) by (apply generic_format_round; auto with typeclass_instances).
  assert (D1 : 1 <= D).
  { unfold D. rewrite <- (round_generic radix2 fexp32 Zfloor 1 F32_1). apply round_le; auto with typeclass_instances. }
  assert (G1 : 1 <= G) by (apply rnd_ge_F; [apply F32_1|exact H1]).
  destruct (Rle_or_lt G n) as [HG|HG].
  - apply Rle_trans with G; [|exact HG]. apply rnd_le_F; [exact FG|]. nra.
  - assert (HDlt : D < n).
    { destruct (Rle_lt_or_eq_dec _ _ HD) as [L|E]; [exact L|]. exfalso. assert (G = n) by (unfold G; apply rnd_id; rewrite <- E; exact FD). lra. }
    assert (NF : ~ F32 n) by (intro Fn; apply rnd_id in Fn; fold G in Fn; lra).
    assert (GU : G = round radix2 fexp32 Zceil n).
    { destruct (round_DN_or_UP radix2 fexp32 ZnearestE n) as [E|E]; fold G in E; [fold D in E; lra|exact E]. }
    assert (GS : G = succ radix2 fexp32 D).
    { rewrite GU. symmetry. apply succ_DN_eq_UP; auto with typeclass_instances. }
    assert (GD : G = D + ulp radix2 fexp32 D) by (rewrite GS; apply succ_eq_pos; lra).
    assert (UD : ulp radix2 fexp32 D <= D * bpow radix2 (1 - 24)).
    { replace D with (Rabs D) at 2 by (apply Rabs_pos_eq; lra).
      apply (ulp_FLT_le radix2 (-149) 24). rewrite Rabs_pos_eq by lra. apply Rle_trans with (bpow radix2 0); [apply bpow_le; lia|cbn; lra]. }
    assert (Sp : s <= 1 - bpow radix2 (-24)).
    { replace (1 - bpow radix2 (-24)) with (pred radix2 fexp32 1).
      - apply pred_ge_gt; auto using F32_1 with typeclass_instances. lra.
      - change 1 with (bpow radix2 0) at 1. rewrite pred_bpow by auto with typeclass_instances. reflexivity. }
    apply Rle_trans with D; [|exact HD]. apply round_N_le_midp; auto with typeclass_instances.
    rewrite <- GS.
    assert (B : bpow radix2 (1 - 24) = 2 * bpow radix2 (-24)) by (change (1 - 24)%Z with (1 + -24)%Z; rewrite bpow_plus; reflexivity).
    rewrite B in UD. set (e := bpow radix2 (-24)) in *. assert (He : 0 < e) by apply bpow_gt_0. clearbody e. nra.
Qed.

Lemma of_N_bound n : (n < 2 ^ 64)%N -> val (of_N n) = rnd (IZR (Z.of_N n)) /\ finite (of_N n) = true /\ 0 <= rnd (IZR (Z.of_N n)) <= bpow radix2 64.
Proof.
  intro H. assert (B : 0 <= rnd (IZR (Z.of_N n)) <= bpow radix2 64).
  { split; [apply rnd_ge0; apply (IZR_le 0); lia|]. apply rnd_le_F; [apply F32_bpow; lia|].
    rewrite <- (IZR_Zpower radix2 64) by lia. apply IZR_le. change (Zpower radix2 64) with (2 ^ 64)%Z. lia. }
  unfold of_N. destruct (of_Z_correct (Z.of_N n)) as [E F].
  - rewrite Rabs_pos_eq by lra. apply Rle_lt_trans with (1 := proj2 B). apply bpow_lt. lia.
  - auto.
Qed.

Lemma scaled_count n s : (n < 2 ^ 64)%N -> finite s = true -> 0 <= val s < 1 ->
  exists k, to_size (fmul (of_N n) s) = Ok k /\ (k <= n)%N /\ (k = Z.to_N (Zfloor (rnd (rnd (IZR (Z.of_N n)) * val s)))).
Proof.
  intros Hn Fs Hs. destruct (of_N_bound n Hn) as (E & F & B).
  assert (L : 0 <= rnd (rnd (IZR (Z.of_N n)) * val s) <= IZR (Z.of_N n)).
  { split; [apply rnd_ge0; nra|]. apply scaled_le; [apply (IZR_le 0); lia|apply val_format|exact Hs|].
    destruct (N.eq_dec n 0) as [->|]; [left; reflexivity|right; apply (IZR_le 1); lia]. }
  destruct (fmul_correct (of_N n) s F Fs) as [EM FM].
  { rewrite E, Rabs_pos_eq by lra. apply Rle_lt_trans with (1 := proj2 L). 
    apply Rlt_trans with (bpow radix2 64); [|apply bpow_lt; lia]. rewrite <- (IZR_Zpower radix2 64) by lia. apply IZR_lt. change (Zpower radix2 64) with (2 ^ 64)%Z. lia. }
  rewrite E in EM. set (r := rnd (rnd (IZR (Z.of_N n)) * val s)) in *.
  assert (Z0 : (0 <= Zfloor r)%Z) by (apply Zfloor_lub; apply L).
  assert (Z1 : (Zfloor r <= Z.of_N n)%Z) by (apply le_IZR; apply Rle_trans with (1 := Zfloor_lb r); apply L).
  exists (Z.to_N (Zfloor r)). split; [|split; [lia|reflexivity]].
  apply to_unsigned_ok; [lia|exact FM| |rewrite Z2N.id by exact Z0; lia].
  rewrite Z2N.id by exact Z0. rewrite EM. split; [apply Zfloor_lb|]. rewrite plus_IZR. apply Zfloor_ub.
Qed.

Lemma val_of_Z_small z : (Z.abs z <= 2 ^ 24)%Z -> val (of_Z z) = IZR z /\ finite (of_Z z) = true.
Proof.
  intro H. pose proof (rnd_id _ (F32_Z z H)) as E. destruct (of_Z_correct z) as [A B].
  - rewrite E. apply Rle_lt_trans with (bpow radix2 24); [|apply bpow_lt; lia]. rewrite <- abs_IZR. rewrite <- (IZR_Zpower radix2 24) by lia. now apply IZR_le.
  - rewrite E in A. auto.
Qed.

Lemma split_pair n s t : (n < 2 ^ 64)%N -> finite s = true -> finite t = true -> 0 < val s < 1 -> val t <= 0 ->
  val (fadd (of_Z 1) t) = val s -> finite (fadd (of_Z 1) t) = true ->
  exists k, (k <= n)%N /\ split_range n s = Ok (0, k)%N /\ split_range n t = Ok (k, n - k)%N.
Proof.
  intros Hn Fs Ft Hs Ht Ea Fa. destruct (val_of_Z_small 0) as [E0 F0]; [lia|].
  destruct (scaled_count n s Hn Fs) as (k & E1 & E2 & E3); [lra|].
  destruct (scaled_count n (fadd (of_Z 1) t) Hn Fa) as (k' & E1' & E2' & E3'); [lra|]. rewrite Ea, <- E3 in E3'. subst k'. exists k. split; [exact E2|].
  unfold split_range. assert (G1 : fgt s (of_Z 0) = true) by (apply fgt_true; [exact Fs|exact F0|rewrite E0; lra]).
  assert (G2 : fgt t (of_Z 0) = false).
  { destruct (fgt t (of_Z 0)) eqn:Q; [|reflexivity]. apply fgt_true in Q; [rewrite E0 in Q; lra|exact Ft|exact F0]. }
  rewrite G1, G2, E1, E1'. cbn [obind]. split; [reflexivity|]. do 2 f_equal.
  replace (n + 2 ^ 64 - k)%N with (n - k + 1 * 2 ^ 64)%N by lia. rewrite N.mod_add by discriminate. apply N.mod_small. lia.
Qed.
