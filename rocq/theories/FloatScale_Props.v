(** C115: numbers of a dataset survive their scaling in [float]. *)
From Coq Require Import List Arith Bool NArith ZArith Reals Lia Lra.
From Flocq Require Import Core IEEE754.BinarySingleNaN IEEE754.Binary IEEE754.Bits.
From Verif Require Import F32_Model F32_Proofs Scaling_Model Reduce_Model FloatNet_Model FloatNet_Spec FloatNet_Proofs FloatNet_Props FloatSoft_Proofs FloatOpt_Model FloatOpt_Proofs FloatScale_Model FloatScale_Spec FloatScale_Proofs.
From Verif Require Scaling_Props FloatAct_Proofs.
Import ListNotations.
Local Open Scope R_scope.

(** A column whose deviation is at most 1 is only normalised: its numbers are stored between 0 and 1, and come back with an error of at most
    8 units in the last place of the largest. *)
Theorem float_normalised_column_survives : forall tensors K x, Forall (Forall is_number) tensors -> (forall y, In y (concat tensors) -> Rabs (number y) <= K) -> K <= 2 ^ 120 ->
  is_standardized float32 (column_metadata tensors) = false -> (exists y z, In y (concat tensors) /\ In z (concat tensors) /\ number y <> number z) -> In x (concat tensors) ->
  let m := column_metadata tensors in
  0 <= number (scale float32 m x) <= 1 /\ is_number (unscale float32 m (scale float32 m x)) /\ Rabs (number (unscale float32 m (scale float32 m x)) - number x) <= 8 * unit_error * K + 4 * tiny.
Proof.
  intros ts K x Ft B HK S (y & z & Iy & Iz & Ne) Ix m. assert (N : concat ts <> []) by (intros E; rewrite E in Ix; exact Ix).
  destruct (column_range ts Ft N) as (Nl & Nh & (a & Ia & Va) & (b & Ib & Vb) & R). fold m in Nl, Nh, Va, Vb, R.
  assert (L : number (min_value float32 m) < number (max_value float32 m)) by (pose proof (R y Iy); pose proof (R z Iz); lra).
  pose proof (B a Ia) as Ba. pose proof (B b Ib) as Bb. apply Rabs_le_inv in Ba. apply Rabs_le_inv in Bb.
  assert (Nx : is_number x) by (apply in_concat in Ix as (t & It & Ix); rewrite Forall_forall in Ft; specialize (Ft t It); rewrite Forall_forall in Ft; exact (Ft x Ix)).
  assert (Z : 1 <= K <= 2 ^ 120 \/ (0 <= K <= 1)) by lra.
  destruct (normal_float _ _ x K Nl Nh Nx ltac:(lra) (R x Ix) ltac:(lra) L Z) as [N1 E1].
  unfold unscale, scale. change (is_standardized float32 m) with (is_standardized float32 (column_metadata ts)). rewrite S. change (is_normalized float32 m) with true. cbv iota.
  split; [|split; [exact N1|exact E1]]. destruct (Scaling_Props.normalised_float_in_unit_interval (min_value float32 m) (max_value float32 m) x Nl Nh Nx L (R x Ix)) as [_ Q]; [|exact Q].
  pose proof (in_range (number (max_value float32 m) - number (min_value float32 m))) as I. assert (G : Rabs (number (max_value float32 m) - number (min_value float32 m)) <= 2 ^ 127).
  { rewrite Rabs_pos_eq by lra. assert (1 <= 2 ^ 120) by (apply pow_R1_Rle; lra). assert (2 ^ 127 = 128 * 2 ^ 120) by (change 127%nat with (7 + 120)%nat; rewrite pow_add; lra). lra. }
  specialize (I G). apply Rabs_lt_inv in I. exact (proj2 I).
Qed.
Print Assumptions float_normalised_column_survives.

(** The least number of such a column is stored as 0 and the greatest as 1. *)
Theorem float_normalised_column_fills : forall tensors K x, Forall (Forall is_number) tensors -> (forall y, In y (concat tensors) -> Rabs (number y) <= K) -> K <= 2 ^ 120 ->
  is_standardized float32 (column_metadata tensors) = false -> (exists y z, In y (concat tensors) /\ In z (concat tensors) /\ number y <> number z) -> In x (concat tensors) ->
  ((forall y, In y (concat tensors) -> number x <= number y) -> number (scale float32 (column_metadata tensors) x) = 0) /\
  ((forall y, In y (concat tensors) -> number y <= number x) -> number (scale float32 (column_metadata tensors) x) = 1).
Proof.
  intros ts K x Ft B HK S (y & z & Iy & Iz & Ne) Ix. assert (N : concat ts <> []) by (intros E; rewrite E in Ix; exact Ix).
  destruct (column_range ts Ft N) as (Nl & Nh & (a & Ia & Va) & (b & Ib & Vb) & R). set (m := column_metadata ts) in *.
  assert (L : number (min_value float32 m) < number (max_value float32 m)) by (pose proof (R y Iy); pose proof (R z Iz); lra).
  pose proof (B a Ia) as Ba. pose proof (B b Ib) as Bb. apply Rabs_le_inv in Ba. apply Rabs_le_inv in Bb.
  assert (Nx : is_number x) by (apply in_concat in Ix as (t & It & Ix); rewrite Forall_forall in Ft; specialize (Ft t It); rewrite Forall_forall in Ft; exact (Ft x Ix)).
  pose proof (distinct_floats _ _ (number_format (max_value float32 m)) (number_format (min_value float32 m)) L) as P.
  assert (Z : 9 * K + 1 <= 2 ^ 127) by (assert (1 <= 2 ^ 120) by (apply pow_R1_Rle; lra); assert (2 ^ 127 = 128 * 2 ^ 120) by (change 127%nat with (7 + 120)%nat; rewrite pow_add; lra); lra).
  pose proof p127 as P127. pose proof (R x Ix) as Rx.
  unfold scale. rewrite S. change (is_normalized float32 m) with true. cbv iota. unfold normalise. cbn [float32 a_sub a_div num].
  destruct (sub_is x (min_value float32 m) Nx Nl) as [N1 V1]; [rewrite Rabs_pos_eq by lra; lra|]. destruct (sub_is (max_value float32 m) (min_value float32 m) Nh Nl) as [N2 V2]; [rewrite Rabs_pos_eq by lra; lra|].
  split; intros H.
  - assert (E : number x = number (min_value float32 m)) by (pose proof (H a Ia); lra). rewrite E, Rminus_diag_eq, rnd_0 in V1 by reflexivity.
    destruct (div_is _ (fsub (max_value float32 m) (min_value float32 m)) N1) as [N3 V3]; [rewrite V2; lra|rewrite V1; unfold Rdiv; rewrite Rmult_0_l, Rabs_R0; lra|]. etransitivity; [exact V3|]. rewrite V1. unfold Rdiv. rewrite Rmult_0_l. apply rnd_0.
  - assert (E : number x = number (max_value float32 m)) by (pose proof (H b Ib); lra). rewrite E in V1.
    assert (Q : number (fsub x (min_value float32 m)) / number (fsub (max_value float32 m) (min_value float32 m)) = 1) by (rewrite V1, V2; field; lra).
    destruct (div_is _ (fsub (max_value float32 m) (min_value float32 m)) N1) as [N3 V3]; [rewrite V2; lra|rewrite Q, Rabs_R1; lra|]. etransitivity; [exact V3|]. rewrite Q. apply rnd_id. apply F32_1.
Qed.
Print Assumptions float_normalised_column_fills.

(** A column that is standardised first comes back with an error of at most 48 units in the last place of the largest number times the deviation. *)
Theorem float_standardised_number_survives : forall m K x, usable m K -> is_standardized float32 m = true -> K * number (standard_deviation float32 m) <= 2 ^ 120 -> is_number x -> Rabs (number x) <= K ->
  is_number (unscale float32 m (scale float32 m x)) /\ Rabs (number (unscale float32 m (scale float32 m x)) - number x) <= 48 * unit_error * (K * number (standard_deviation float32 m)).
Proof.
  intros m K x (En & K1 & Nm & Bl & Bh & L & St) S B Nx Bx. destruct (St S) as (Bm & S1 & R1). unfold unscale, scale. rewrite S, En.
  apply standard_float; try assumption; apply Nm; tauto.
Qed.
Print Assumptions float_standardised_number_survives.

(** The order of numbers is kept, though not always strictly. *)
Theorem float_scaling_keeps_order : forall m K x y, usable m K -> K <= 2 ^ 120 -> is_number x -> is_number y -> number (min_value float32 m) <= number x -> number x <= number y -> number y <= number (max_value float32 m) ->
  is_number (scale float32 m x) /\ is_number (scale float32 m y) /\ number (scale float32 m x) <= number (scale float32 m y).
Proof.
  intros m K x y (En & K1 & Nm & Bl & Bh & L & St) HK Nx Ny Hl Hxy Hh. unfold scale. rewrite En.
  assert (Nl : is_number (min_value float32 m)) by (apply Nm; tauto). assert (Nh : is_number (max_value float32 m)) by (apply Nm; tauto).
  set (lo := min_value float32 m) in *. set (hi := max_value float32 m) in *. pose proof (p127_large K HK) as Z.
  pose proof (Rabs_le_inv _ _ Bl) as Bl'. pose proof (Rabs_le_inv _ _ Bh) as Bh'. destruct (small_products K ltac:(lra)) as (U1 & U2 & U3 & U4 & U5 & U6 & U7 & U8).
  assert (UK : unit_error * K <= K / 1000000) by (unfold Rdiv; rewrite Rmult_comm; apply Rmult_le_compat_l; lra).
  destruct (is_standardized float32 m) eqn:S.
  - destruct (St eq_refl) as (Bm & S1 & R1). set (mu := mean float32 m) in *. set (s := standard_deviation float32 m) in *. assert (Nmu : is_number mu) by (apply Nm; tauto).
    assert (G : forall z, is_number z -> Rabs (number z) <= K -> is_number (normalise float32 lo hi (standardise float32 mu s z)) /\
      number (normalise float32 lo hi (standardise float32 mu s z)) = rnd (rnd (rnd (rnd (number z - number mu) / number s) - number lo) / rnd (number hi - number lo)) /\ 0 < rnd (number hi - number lo)).
    { intros z Nz Bz. pose proof (standard_trip _ _ (number mu) (number s) (number z) K (number_format lo) (number_format hi) K1 Bl Bh Bm Bz R1 S1) as (BD & Bv & Bvl & Bw & _).
      apply Rabs_le_inv in Bm. apply Rabs_le_inv in Bz.
      unfold standardise, normalise. cbn [float32 a_sub a_div num].
      destruct (sub_is z mu Nz Nmu) as [N1 V1]; [apply Rabs_le; lra|].
      destruct (div_is (fsub z mu) s N1) as [N2 V2]; [lra|rewrite V1; lra|]. rewrite V1 in V2.
      destruct (sub_is (fdiv (fsub z mu) s) lo N2 Nl) as [N3 V3]; [rewrite V2; lra|]. rewrite V2 in V3.
      destruct (sub_is hi lo Nh Nl) as [N4 V4]; [apply Rabs_le; lra|].
      destruct (div_is (fsub (fdiv (fsub z mu) s) lo) (fsub hi lo) N3) as [N5 V5]; [rewrite V4; lra|rewrite V3, V4; lra|]. rewrite V3, V4 in V5. split; [exact N5|]. split; [exact V5|lra]. }
    destruct (G x Nx ltac:(apply Rabs_le; lra)) as (N1 & V1 & P). destruct (G y Ny ltac:(apply Rabs_le; lra)) as (N2 & V2 & _). split; [exact N1|]. split; [exact N2|]. rewrite V1, V2.
    apply rnd_le. apply Rmult_le_compat_r; [left; now apply Rinv_0_lt_compat|]. apply rnd_le. apply Rplus_le_compat_r. apply rnd_le. apply Rmult_le_compat_r; [left; apply Rinv_0_lt_compat; lra|]. apply rnd_le. lra.
  - assert (G : forall z, is_number z -> number lo <= number z <= number hi -> is_number (normalise float32 lo hi z) /\ number (normalise float32 lo hi z) = rnd (rnd (number z - number lo) / rnd (number hi - number lo)) /\ 0 < rnd (number hi - number lo)).
    { intros z Nz Bz. pose proof (normal_trip _ _ (number z) K (number_format lo) (number_format hi) ltac:(lra) Bz ltac:(lra) L) as (P & A & Q & _).
      unfold normalise. cbn [float32 a_sub a_div num].
      destruct (sub_is z lo Nz Nl) as [N1 V1]; [rewrite Rabs_pos_eq by lra; lra|]. destruct (sub_is hi lo Nh Nl) as [N2 V2]; [rewrite Rabs_pos_eq by lra; lra|].
      destruct (div_is (fsub z lo) (fsub hi lo) N1) as [N3 V3]; [rewrite V2; lra|rewrite V1, V2, Rabs_pos_eq by lra; lra|]. rewrite V1, V2 in V3. split; [exact N3|]. split; [exact V3|exact P]. }
    destruct (G x Nx ltac:(lra)) as (N1 & V1 & P). destruct (G y Ny ltac:(lra)) as (N2 & V2 & _). split; [exact N1|]. split; [exact N2|]. rewrite V1, V2.
    apply rnd_le. apply Rmult_le_compat_r; [left; now apply Rinv_0_lt_compat|]. apply rnd_le. lra.
Qed.
Print Assumptions float_scaling_keeps_order.

(** Finding: the standardised numbers are normalised with the least number before standardising. If that is large, all numbers within [t] deviations
    of the mean are stored as the same number. *)
Theorem large_numbers_collapse : forall m K t x y, usable m K -> K <= 2 ^ 120 -> is_standardized float32 m = true -> 0 <= t -> (2 * t + 1) * 2 ^ 27 <= number (min_value float32 m) ->
  is_number x -> is_number y -> Rabs (number x) <= K -> Rabs (number y) <= K ->
  Rabs (number x - number (mean float32 m)) <= t * number (standard_deviation float32 m) -> Rabs (number y - number (mean float32 m)) <= t * number (standard_deviation float32 m) ->
  number (scale float32 m x) = number (scale float32 m y).
Proof.
  intros m K t x y (En & K1 & Nm & Bl & Bh & L & St) HK S T0 Hl Nx Ny Bx By Dx Dy. unfold scale. rewrite En, S. destruct (St S) as (Bm & S1 & R1).
  assert (Nl : is_number (min_value float32 m)) by (apply Nm; tauto). assert (Nh : is_number (max_value float32 m)) by (apply Nm; tauto). assert (Nmu : is_number (mean float32 m)) by (apply Nm; tauto).
  set (lo := min_value float32 m) in *. set (hi := max_value float32 m) in *. set (mu := mean float32 m) in *. set (s := standard_deviation float32 m) in *. pose proof (p127_large K HK) as Z.
  assert (P27 : 0 < 2 ^ 27) by (apply pow_lt; lra). assert (Lo : 0 < number lo) by (assert (0 < (2 * t + 1) * 2 ^ 27) by (apply Rmult_lt_0_compat; lra); lra).
  destruct (small_products t T0) as (U1 & U2 & U3 & U4 & U5 & U6 & U7 & U8).
  assert (G : forall z, is_number z -> Rabs (number z) <= K -> Rabs (number z - number mu) <= t * number s ->
    number (normalise float32 lo hi (standardise float32 mu s z)) = rnd (- number lo / rnd (number hi - number lo))).
  { intros z Nz Bz Dz. pose proof (standard_trip _ _ (number mu) (number s) (number z) K (number_format lo) (number_format hi) K1 Bl Bh Bm Bz R1 S1) as (BD & Bv & Bvl & Bw & _).
    assert (V : Rabs (rnd (rnd (number z - number mu) / number s)) <= 2 * t + 1).
    { pose proof (close_below _ _ Dz) as C1. apply Rabs_le_inv in Dz. assert (Q : Rabs (rnd (number z - number mu) / number s) <= t + unit_error * t + tiny).
      { unfold Rdiv. rewrite Rabs_mult, (Rabs_pos_eq (/ number s)) by (left; apply Rinv_0_lt_compat; lra). apply (Rmult_le_reg_r (number s)); [lra|]. rewrite Rmult_assoc, Rinv_l, Rmult_1_r by lra.
        assert (tiny <= tiny * number s) by (rewrite <- (Rmult_1_r tiny) at 1; apply Rmult_le_compat_l; lra). apply Rabs_le. lra. }
      pose proof (close_below _ _ Q) as C2. apply Rabs_le_inv in Q. assert (unit_error * t <= t / 1000000) by (unfold Rdiv; rewrite Rmult_comm; apply Rmult_le_compat_l; lra). apply Rabs_le. lra. }
    assert (Sw : rnd (rnd (rnd (number z - number mu) / number s) - number lo) = - number lo).
    { apply swallowed; [apply number_format|exact Lo|]. eapply Rle_trans; [|exact Hl]. apply Rmult_le_compat_r; lra. }
    rewrite Sw in Bw.
    pose proof (Rabs_le_inv _ _ Bm). pose proof (Rabs_le_inv _ _ Bz). pose proof (Rabs_le_inv _ _ Bl). pose proof (Rabs_le_inv _ _ Bh).
    unfold standardise, normalise. cbn [float32 a_sub a_div num].
    destruct (sub_is z mu Nz Nmu) as [N1 V1]; [apply Rabs_le; lra|].
    destruct (div_is (fsub z mu) s N1) as [N2 V2]; [lra|rewrite V1; lra|]. rewrite V1 in V2.
    destruct (sub_is (fdiv (fsub z mu) s) lo N2 Nl) as [N3 V3]; [rewrite V2; lra|]. rewrite V2, Sw in V3.
    destruct (sub_is hi lo Nh Nl) as [N4 V4]; [apply Rabs_le; lra|].
    destruct (div_is (fsub (fdiv (fsub z mu) s) lo) (fsub hi lo) N3) as [N5 V5]; [rewrite V4; lra|rewrite V3, V4; lra|]. now rewrite V3, V4 in V5. }
  now rewrite (G x Nx Bx Dx), (G y Ny By Dy).
Qed.
Print Assumptions large_numbers_collapse.

(** A column of two times, 1600000000 and 1700000000 seconds: both are stored as the same number, and shown as 1650000000. *)
Definition early : F := literal 12500000 7.
Definition late : F := literal 13281250 7.
Theorem distinct_numbers_stay_distinct_refuted : exists x y c, is_number x /\ is_number y /\ number x = 1600000000 /\ number y = 1700000000 /\
  stored_column [[x]; [y]] = [[c]; [c]] /\ number (unscale float32 (column_metadata [[x]; [y]]) c) = 1650000000.
Proof.
  exists early, late, (scale float32 (column_metadata [[early]; [late]]) early). destruct (literal_is 12500000 7 ltac:(lia) ltac:(lia)) as [N1 V1]. destruct (literal_is 13281250 7 ltac:(lia) ltac:(lia)) as [N2 V2].
  split; [exact N1|]. split; [exact N2|]. split; [unfold early; rewrite V1; change (bpow radix2 7) with 128; lra|]. split; [unfold late; rewrite V2; change (bpow radix2 7) with 128; lra|]. split.
  - unfold stored_column. cbn [map]. assert (E : scale float32 (column_metadata [[early]; [late]]) late = scale float32 (column_metadata [[early]; [late]]) early) by (apply to_bits_inj; reflexivity). now rewrite E.
  - assert (E : unscale float32 (column_metadata [[early]; [late]]) (scale float32 (column_metadata [[early]; [late]]) early) = literal 12890625 7) by (apply to_bits_inj; reflexivity). rewrite E.
    destruct (literal_is 12890625 7 ltac:(lia) ltac:(lia)) as [_ V]. rewrite V. change (bpow radix2 7) with 128. lra.
Qed.
Print Assumptions distinct_numbers_stay_distinct_refuted.

(** The numbers 1 and 2 are normalised only. *)
Example ex_normalised : let ts := [[of_Z 1]; [of_Z 2]] in let m := column_metadata ts in
  is_standardized float32 m = false /\ Rabs (number (unscale float32 m (scale float32 m (of_Z 2))) - 2) <= 8 * unit_error * 2 + 4 * tiny.
Proof.
  cbv zeta. destruct (FloatAct_Proofs.small_is 1 ltac:(cbn; lia)) as [N1 V1]. destruct (FloatAct_Proofs.small_is 2 ltac:(cbn; lia)) as [N2 V2]. change (IZR 1) with 1 in V1. change (IZR 2) with 2 in V2.
  assert (S : is_standardized float32 (column_metadata [[of_Z 1]; [of_Z 2]]) = false) by reflexivity. split; [exact S|].
  destruct (float_normalised_column_survives [[of_Z 1]; [of_Z 2]] 2 (of_Z 2)) as (_ & _ & H).
  - repeat (constructor; [repeat (constructor; [assumption|]); constructor|]). constructor.
  - intros y [<-|[<-|[]]]; [rewrite V1|rewrite V2]; rewrite Rabs_pos_eq by lra; lra.
  - apply Rle_trans with (2 ^ 1); [lra|]. apply Rle_pow; [lra|lia].
  - exact S.
  - exists (of_Z 1), (of_Z 2). split; [now left|]. split; [right; now left|]. rewrite V1, V2. lra.
  - right. now left.
  - rewrite V2 in H. exact H.
Qed.

(** The column of the two times. *)
Example ex_usable : let m := column_metadata [[early]; [late]] in usable m (2 ^ 31) /\ is_standardized float32 m = true /\
  number (min_value float32 m) = 1600000000 /\ number (mean float32 m) = 1650000000 /\ number (standard_deviation float32 m) = 50000000 /\ number (scale float32 m early) = number (scale float32 m late).
Proof.
  cbv zeta. set (m := column_metadata [[early]; [late]]).
  assert (E1 : min_value float32 m = literal 12500000 7) by (apply to_bits_inj; reflexivity). assert (E2 : max_value float32 m = literal 13281250 7) by (apply to_bits_inj; reflexivity).
  assert (E3 : mean float32 m = literal 12890625 7) by (apply to_bits_inj; reflexivity). assert (E4 : standard_deviation float32 m = literal 12500000 2) by (apply to_bits_inj; reflexivity).
  assert (E5 : is_standardized float32 m = true) by reflexivity.
  destruct (literal_is 12500000 7 ltac:(lia) ltac:(lia)) as [N1 V1]. destruct (literal_is 13281250 7 ltac:(lia) ltac:(lia)) as [N2 V2]. destruct (literal_is 12890625 7 ltac:(lia) ltac:(lia)) as [N3 V3]. destruct (literal_is 12500000 2 ltac:(lia) ltac:(lia)) as [N4 V4].
  change (bpow radix2 7) with 128 in *. change (bpow radix2 2) with 4 in *.
  assert (U : usable m (2 ^ 31)).
  { split; [reflexivity|]. split; [lra|]. split; [intros f [->|[->|[->| ->]]]; rewrite ?E1, ?E2, ?E3, ?E4; assumption|]. rewrite E1, E2, E3, E4, V1, V2, V3, V4. repeat split; try (rewrite Rabs_pos_eq by lra); lra. }
  split; [exact U|]. split; [exact E5|]. rewrite E1, E3, E4, V1, V3, V4. split; [lra|]. split; [lra|]. split; [lra|].
  apply (large_numbers_collapse m (2 ^ 31) 1 early late U); try assumption.
  - apply Rle_pow; [lra|lia].
  - lra.
  - rewrite E1, V1. lra.
  - unfold early. rewrite V1, Rabs_pos_eq by lra. lra.
  - unfold late. rewrite V2, Rabs_pos_eq by lra. lra.
  - rewrite E3, E4, V3, V4. unfold early. rewrite V1. apply Rabs_le. lra.
  - rewrite E3, E4, V3, V4. unfold late. rewrite V2. apply Rabs_le. lra.
Qed.
