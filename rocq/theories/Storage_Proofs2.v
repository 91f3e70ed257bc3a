From Coq Require Import NArith ZArith List Lia ZifyN ZifyNat ZifyBool Bool.
From Verif Require Import Outcome Float32_Spec HalfFloat_Model HalfFloat_Proofs QuarterFloat_Model QuarterFloat_Proofs QuarterFloat_Proofs2 QuarterFloat_Proofs3
  TensorFile_Model TensorFile_Spec TensorFile_Proofs Storage_Model Storage_Spec Storage_Proofs.
Import ListNotations.
Open Scope N_scope.
Ltac Zify.zify_post_hook ::= Z.div_mod_to_equations.

(* ---- the range ---- *)
Lemma less_min lo v m : isnan_bits v = false -> isnan_bits m = false ->
  less lo (if less v m then v else m) = less lo m && less lo v /\ isnan_bits (if less v m then v else m) = false.
Proof.
  intros Hv Hm. destruct (less v m) eqn:E; [|]; (split; [|assumption]); revert E; unfold less; rewrite Hv, Hm; cbn [negb andb]; rewrite ?andb_true_r; destruct (isnan_bits lo); cbn [negb andb]; lia.
Qed.
Lemma less_max hi v m : isnan_bits v = false -> isnan_bits m = false ->
  less (if less m v then v else m) hi = less m hi && less v hi /\ isnan_bits (if less m v then v else m) = false.
Proof.
  intros Hv Hm. destruct (less m v) eqn:E; [|]; (split; [|assumption]); revert E; unfold less; rewrite Hv, Hm; cbn [negb andb]; rewrite ?andb_true_r; destruct (isnan_bits hi); cbn [negb andb]; lia.
Qed.
Lemma range_fold lo hi l : Forall (fun x => isnan_bits x = false) l -> forall m M, isnan_bits m = false -> isnan_bits M = false ->
  let r := fold_left (fun '(minResult, maxResult) val =>
    (if less val minResult then val else minResult, if less maxResult val then val else maxResult)) l (m, M) in
  less lo (fst r) && less (snd r) hi = less lo m && less M hi && forallb (fun x => less lo x && less x hi) l.
Proof.
  induction 1 as [|x l Hx Hl IH]; intros m M Hm HM; cbv zeta; cbn [fold_left forallb fst snd]; [now rewrite andb_true_r|].
  destruct (less_min lo x m Hx Hm) as [E1 N1]. destruct (less_max hi x M Hx HM) as [E2 N2].
  rewrite (IH _ _ N1 N2), E1, E2. destruct (less lo m), (less lo x), (less M hi), (less x hi); reflexivity.
Qed.

Lemma finite_mag_lt x : f32_finite x -> f32_mag x < 2^24 * 2^253.
Proof.
  unfold f32_finite. intro F. destruct (N.eq_dec (f32_exp x) 0) as [E|E].
  - pose proof (mag_exp0 x E). eapply N.lt_le_trans; [exact H|]. pose proof (pow_pos 253). npows. lia.
  - destruct (mag_exp_bounds x E) as [_ M]. eapply N.lt_le_trans; [exact M|]. apply N.mul_le_mono_l. apply N.pow_le_mono_r; lia.
Qed.
Lemma negate_small x : x < 2^31 -> negate x = x + 2^31.
Proof.
  intro H. unfold negate. assert (D : N.land x (2^31) = 0).
  { apply N.bits_inj. intro i. rewrite N.land_spec, N.pow2_bits_eqb, N.bits_0. destruct (31 =? i) eqn:E; [|apply andb_false_r].
    apply N.eqb_eq in E. subst i. rewrite andb_true_r. destruct (N.eq_dec x 0) as [->|Hx]; [apply N.bits_0|]. apply N.bits_above_log2. apply N.log2_lt_pow2; lia. }
  symmetry. now apply N.add_nocarry_lxor.
Qed.
Lemma units_negate x : x < 2^31 -> f32_units (negate x) = (- Z.of_N (f32_mag x))%Z /\ f32_exp (negate x) = f32_exp x.
Proof.
  intro H. rewrite negate_small by exact H. split.
  - rewrite units_neg by lia. rewrite mag_low. unfold low31. replace ((x + 2^31) mod 2^31) with x; [reflexivity|]. npows. lia.
  - unfold f32_exp. npows. lia.
Qed.
Lemma top_lt_inf b : ok_bias b -> top b < 2^24 * 2^253.
Proof. intro H. destruct (top_spec b H) as (_ & <- & _ & E). apply finite_mag_lt. unfold f32_finite. pose proof (adj_range b H). lia. Qed.

Lemma less_top b x : ok_bias b -> isnan_bits x = false ->
  less (negate (top_bits b)) x && less x (top_bits b) = (Z.abs (f32_units x) <? Z.of_N (top b))%Z.
Proof.
  intros Hb Hx. destruct (top_spec b Hb) as (_ & Mt & Lt & Et). destruct (units_negate _ Lt) as [Un En]. pose proof (adj_range b Hb) as A.
  assert (N1 : isnan_bits (top_bits b) = false) by (apply isnan_false; unfold f32_finite; lia).
  assert (N2 : isnan_bits (negate (top_bits b)) = false) by (apply isnan_false; unfold f32_finite; lia).
  unfold less. rewrite N1, N2, Hx. cbn [negb andb]. rewrite Un, (units_pos _ Lt), Mt. set (u := f32_units x). set (p := Z.of_N (top b)). clearbody u p. lia.
Qed.
Definition within (b : Z) (l : list N) : bool := forallb (fun x => f32_mag x <? top b) l.
Lemma fits_within t b : ok_bias b -> Forall f32_finite (elements t) -> fits (fst (range t)) (snd (range t)) b = within b (elements t).
Proof.
  intros Hb F. unfold fits. destruct (top_spec b Hb) as (-> & Mt & Lt & Et). unfold range.
  assert (G : Forall (fun x => isnan_bits x = false) (elements t)) by (eapply Forall_impl; [|exact F]; apply isnan_false).
  rewrite (range_fold _ _ _ G) by reflexivity.
  assert (I : less (negate (top_bits b)) FLOAT_INF && less FLOAT_NEG_INF (top_bits b) = true).
  { destruct (units_negate _ Lt) as [Un En]. pose proof (adj_range b Hb) as A.
    assert (N1 : isnan_bits (top_bits b) = false) by (apply isnan_false; unfold f32_finite; lia).
    assert (N2 : isnan_bits (negate (top_bits b)) = false) by (apply isnan_false; unfold f32_finite; lia).
    unfold less. rewrite N1, N2. change (isnan_bits FLOAT_INF) with false. change (isnan_bits FLOAT_NEG_INF) with false. cbn [negb andb].
    rewrite Un, (units_pos _ Lt), Mt. assert (U1 : (0 < f32_units FLOAT_INF)%Z) by reflexivity. assert (U2 : (f32_units FLOAT_NEG_INF < 0)%Z) by reflexivity.
    set (p := f32_units FLOAT_INF) in *. set (q := f32_units FLOAT_NEG_INF) in *. clearbody p q. lia. }
  rewrite I. cbn [andb]. unfold within. clear I. induction G as [|x l Hx Hl IH]; [reflexivity|]. cbn [forallb].
  rewrite IH by (now inversion F). rewrite less_top by assumption. f_equal. unfold f32_units. destruct (f32_sign x); lia.
Qed.

(* ---- the bias ---- *)
Lemma top_antitone b b' : (b <= b')%Z -> top b' <= top b.
Proof. intro H. unfold top. apply N.mul_le_mono_l. apply N.pow_le_mono_r; [lia|]. unfold adj. lia. Qed.
Lemma within_antitone b b' l : (b <= b')%Z -> within b' l = true -> within b l = true.
Proof.
  intros H W. unfold within in *. rewrite forallb_forall in *. intros x Hx. specialize (W x Hx). pose proof (top_antitone b b' H). lia.
Qed.
Definition best (l : list N) : Z := estimateBias (fun b => within b l) 4 15.
Lemma estimate_ext f g lo : forall n p, (forall b, (p - Z.of_nat n < b <= p)%Z -> f b = g b) -> estimate_bias_loop f lo p n = estimate_bias_loop g lo p n.
Proof.
  induction n as [|n IH]; intros p H; [reflexivity|]. cbn [estimate_bias_loop]. rewrite (H p) by lia. destruct (g p); [reflexivity|]. apply IH. intros b Hb. apply H. lia.
Qed.
Lemma bias_best t : Forall f32_finite (elements t) -> (let '(mn, mx) := range t in estimateBias (fits mn mx) 4 15) = best (elements t).
Proof.
  intro F. pose proof (fits_within t) as W. destruct (range t) as [mn mx]. cbn [fst snd] in W. unfold best, estimateBias. apply estimate_ext.
  intros b Hb. apply W; [|exact F]. change (Z.of_nat (Z.to_nat (15 - 4 + 1))) with 12%Z in Hb. unfold ok_bias. lia.
Qed.
Lemma best_spec l : ok_bias (best l) /\ (forall b, ok_bias b -> within b l = true -> (b <= best l)%Z) /\ (best l <> 4%Z -> within (best l) l = true) /\
  (forall b, ok_bias b -> within b l = true -> within (best l) l = true).
Proof.
  unfold best. set (f := fun b => within b l). destruct (estimate_bias_spec f 4 15 ltac:(lia)) as [R S]. cbv zeta in *.
  pose proof (estimate_loop_spec f 4 15 (Z.to_nat (15 - 4 + 1))) as L. cbv zeta in L. fold (estimateBias f 4 15) in L.
  repeat split; try apply R.
  - intros b Hb W. apply (S b Hb W).
  - intro Hn. destruct L as [(i & _ & _ & E & _)|[E _]]; [exact E|contradiction].
  - intros b Hb W. apply (S b Hb W).
Qed.
Lemma not_within b l : within b l = false -> exists x, In x l /\ top b <= f32_mag x.
Proof.
  unfold within. induction l as [|x l IH]; [discriminate|]. cbn [forallb]. destruct (f32_mag x <? top b) eqn:E; cbn [andb]; intro H.
  - destruct (IH H) as (y & Hy & L). exists y. split; [now right|exact L].
  - exists x. split; [now left|]. lia.
Qed.
Lemma best_next l : best l <> 15%Z -> exists x, In x l /\ top (best l + 1) <= f32_mag x.
Proof.
  intro H. destruct (best_spec l) as (R & B & _). apply not_within. destruct (within (best l + 1) l) eqn:W; [|reflexivity].
  specialize (B (best l + 1)%Z). unfold ok_bias in *. lia.
Qed.

(* ---- the elements ---- *)
Lemma copy_box {A} (f : N -> A) t : box (rows t) (cols t) (chans t) (copy f t).
Proof.
  unfold box, copy. rewrite map_length, seq_length. split; [reflexivity|]. rewrite Forall_map. apply Forall_forall. intros k _.
  rewrite map_length, seq_length. split; [reflexivity|]. rewrite Forall_map. apply Forall_forall. intros r _. now rewrite map_length, seq_length.
Qed.
Lemma stored_copy {A} (dec : A -> N) enc t : solid t -> elementwise t (stored dec (copy enc t)) (fun x y => y = dec (enc x)).
Proof.
  intros (H1 & H2 & H3). destruct (box_counts _ _ _ _ (copy_box enc t)) as (E1 & E2 & E3). unfold elementwise, stored. cbn [rows cols chans value].
  repeat split; [apply E2; lia|apply E3; lia|exact E1|]. intros r c k Hr Hc Hk.
  unfold TensorFile_Model.getValue, copy, at_. rewrite nth_error_map, (nth_error_nth' _ 0%nat) by (now rewrite seq_length). rewrite seq_nth by exact Hk. cbn [option_map obind Nat.add].
  rewrite nth_error_map, (nth_error_nth' _ 0%nat) by (now rewrite seq_length). rewrite seq_nth by exact Hr. cbn [option_map obind Nat.add].
  rewrite nth_error_map, (nth_error_nth' _ 0%nat) by (now rewrite seq_length). rewrite seq_nth by exact Hc. reflexivity.
Qed.
Lemma in_elements t x : In x (elements t) <-> some_element t (eq x).
Proof.
  unfold elements, copy, some_element. rewrite in_concat. split.
  - intros (l & Hl & Hx). apply in_concat in Hl. destruct Hl as (m & Hm & Hl). apply in_map_iff in Hm. destruct Hm as (k & <- & Hk).
    apply in_map_iff in Hl. destruct Hl as (r & <- & Hr). apply in_map_iff in Hx. destruct Hx as (c & <- & Hc). apply in_seq in Hk, Hr, Hc.
    exists r, c, k. repeat split; lia.
  - intros (r & c & k & Hr & Hc & Hk & ->). exists (map (fun c => value t r c k) (seq 0 (cols t))).
    split; [|apply in_map_iff; exists c; split; [reflexivity|apply in_seq; lia]].
    apply in_concat. exists (map (fun r => map (fun c => value t r c k) (seq 0 (cols t))) (seq 0 (rows t))).
    split; [apply in_map_iff; exists k; split; [reflexivity|apply in_seq; lia]|].
    apply in_map_iff. exists r. split; [reflexivity|apply in_seq; lia].
Qed.
Lemma all_in t P : all_elements t P <-> Forall P (elements t).
Proof.
  rewrite Forall_forall. split.
  - intros H x Hx. apply in_elements in Hx. destruct Hx as (r & c & k & Hr & Hc & Hk & ->). now apply H.
  - intros H r c k Hr Hc Hk. apply H. apply in_elements. exists r, c, k. auto.
Qed.
Lemma floats_finite t : all_elements t is_float -> Forall f32_finite (elements t).
Proof. intro H. apply all_in in H. eapply Forall_impl; [|exact H]. now intros x [_ ?]. Qed.

(** Eight bits: what the elements become. *)
Lemma eight_bits t : all_elements t is_float -> materializeTensor t 8 = QuarterTensor t (best (elements t)).
Proof.
  intro H. unfold materializeTensor. change (8 =? 32) with false. change (8 =? 16) with false. cbv iota. pose proof (bias_best t (floats_finite t H)) as E.
  destruct (range t) as [mn mx]. now rewrite E.
Qed.
Lemma eight_bits_elements t : solid t -> all_elements t is_float ->
  elementwise t (materializeTensor t 8) (fun x y => y = quarter_store x (best (elements t))).
Proof. intros Ht H. rewrite (eight_bits t H). exact (stored_copy (fun q => Z.to_N (quarterToFloat q (best (elements t)))) (store_quarter (best (elements t))) t Ht). Qed.
