(** C115, continued: the statistics of a column of numbers, computed in [double] and kept in [float], are those of a column. *)
From Coq Require Import List Arith Bool NArith ZArith Reals Lia Lra.
From Flocq Require Import Core IEEE754.BinarySingleNaN IEEE754.Binary IEEE754.Bits.
From Verif Require Import F32_Model F32_Proofs Scaling_Model Reduce_Model FloatNet_Model FloatNet_Spec FloatNet_Proofs FloatNet_Props FloatSoft_Proofs FloatNorm_Proofs FloatOpt_Model FloatOpt_Proofs FloatScale_Model FloatScale_Spec FloatScale_Proofs FloatScale_Props FloatStat_Proofs.
From Verif Require FloatAct_Proofs.
Import ListNotations.
Local Open Scope R_scope.

Lemma grid x : F32 x -> exists n, x = IZR n * bpow radix2 (-149).
Proof. intros H. destruct (@FLT_format_generic radix2 (-149) 24 eq_refl x H) as [f E _ L]. exists (Fnum f * 2 ^ (Fexp f + 149))%Z. rewrite E. unfold F2R. rewrite mult_IZR. change 2%Z with (radix_val radix2). rewrite IZR_Zpower by lia. rewrite Rmult_assoc, <- bpow_plus. do 2 f_equal. lia. Qed.
Lemma floats_apart x y : F32 x -> F32 y -> x < y -> / 2 ^ 149 <= y - x.
Proof.
  intros Fx Fy L. destruct (grid x Fx) as [a ->]. destruct (grid y Fy) as [b ->]. pose proof (bpow_gt_0 radix2 (-149)) as P. replace (/ 2 ^ 149) with (bpow radix2 (-149)) by (change (-149)%Z with (Z.opp (Z.of_nat 149)); rewrite bpow_opp, bpow_pow; reflexivity).
  set (u := bpow radix2 (-149)) in *. apply Rmult_lt_reg_r in L; [|exact P]. apply lt_IZR in L. assert (IZR a + 1 <= IZR b) by (rewrite <- plus_IZR; apply IZR_le; lia). replace (IZR b * u - IZR a * u) with ((IZR b - IZR a) * u) by ring. rewrite <- (Rmult_1_l u) at 1. apply Rmult_le_compat_r; lra.
Qed.

(** For up to 2^20 numbers that are not all the same, mean and deviation are numbers; the mean is between the least and the greatest number of the
    column, and the deviation between 0 and any power of two that is at least their difference. The column is standardised only if the deviation is at
    least 1 and the difference above 1. *)
Theorem float_column_statistics : forall tensors K, Forall (Forall is_number) tensors -> (forall y, In y (concat tensors) -> Rabs (number y) <= K) -> K <= 2 ^ 120 ->
  (Z.of_nat (length (concat tensors)) <= 1048576)%Z -> (exists y z, In y (concat tensors) /\ In z (concat tensors) /\ number y <> number z) ->
  let m := column_metadata tensors in
  is_number (mean float32 m) /\ is_number (standard_deviation float32 m) /\
  number (min_value float32 m) <= number (mean float32 m) <= number (max_value float32 m) /\ 0 <= number (standard_deviation float32 m) /\
  (forall n, (0 <= n <= 121)%Z -> number (max_value float32 m) - number (min_value float32 m) <= bpow radix2 n -> number (standard_deviation float32 m) <= bpow radix2 n) /\
  (is_standardized float32 m = true -> 1 <= number (standard_deviation float32 m) /\ 1 < number (max_value float32 m) - number (min_value float32 m)).
Proof.
  intros ts K Ft B HK HL (y & z & Iy & Iz & Ne) m. assert (N : concat ts <> []) by (intros E; rewrite E in Iy; exact Iy).
  destruct (column_range ts Ft N) as (Nl & Nh & (a & Ia & Va) & (b & Ib & Vb) & R). fold m in Nl, Nh, Va, Vb, R. set (lo := number (min_value float32 m)) in *. set (hi := number (max_value float32 m)) in *.
  assert (L : lo < hi) by (pose proof (R y Iy); pose proof (R z Iz); lra). pose proof (B a Ia) as Ba. pose proof (B b Ib) as Bb. apply Rabs_le_inv in Ba. apply Rabs_le_inv in Bb.
  assert (Fl : F32 lo) by apply number_format. assert (Fh : F32 hi) by apply number_format. pose proof (floats_apart lo hi Fl Fh L) as Ap.
  assert (Bl : - 2 ^ 120 <= lo) by lra. assert (Bh : hi <= 2 ^ 120) by lra.
  assert (Num : forall x, In x (concat ts) -> is_number x /\ lo <= number x <= hi). { intros x Ix. split; [|exact (R x Ix)]. apply in_concat in Ix as (t & It & Ix). rewrite Forall_forall in Ft. specialize (Ft t It). rewrite Forall_forall in Ft. exact (Ft x Ix). }
  assert (C0 : counted lo hi 0 tally0). { assert (V0 : val64 double0 = 0) by reflexivity. split; [reflexivity|]. split; [reflexivity|]. split; [reflexivity|]. split; [exact V0|]. split; [intros _; split; exact V0|]. intros Q. now contradiction Q. }
  destruct (counted_tensors lo hi Bl Bh Ap ts 0 tally0 HL C0 Num) as [C D]. cbn [Nat.add] in C. assert (Nts : ts <> []) by (intros E; apply N; rewrite E; reflexivity). specialize (D Nts).
  set (s := fold_left tally_tensor ts tally0) in *. set (k := length (concat ts)) in *. assert (K0 : (0 < k)%nat) by (unfold k; destruct (concat ts); [congruence|cbn; lia]).
  destruct (deviation_is lo hi Bl Bh Ap k s K0 HL C D) as (Fd & Dp & D1 & Dn). destruct C as (Fm & _ & _ & _ & _ & Ck). destruct (Ck ltac:(lia)) as [Bm _].
  assert (Rm : lo <= rnd (val64 (t_mean s)) <= hi). { split; [rewrite <- (rnd_id lo Fl)|rewrite <- (rnd_id hi Fh)]; apply rnd_le; apply Bm. }
  assert (M : 2 ^ 121 < max32) by (change max32 with (bpow radix2 (Z.of_nat 128)); rewrite bpow_pow; apply Rlt_pow; [lra|lia]). assert (P1 : 2 ^ 121 = 2 * 2 ^ 120) by reflexivity. assert (P0 : 0 < 2 ^ 120) by (apply pow_lt; lra).
  assert (Pow : forall n, (0 <= n <= 121)%Z -> hi - lo <= bpow radix2 n -> rnd (val64 (t_deviation s)) <= bpow radix2 n). { intros n Hn Hw. assert (Fn : F32 (bpow radix2 n)) by (apply F32_bpow; lia). rewrite <- (rnd_id _ Fn). apply rnd_le. apply Dn; [lia|exact Hw]. }
  assert (Dr : 0 <= rnd (val64 (t_deviation s))) by (rewrite <- rnd_0; apply rnd_le; exact Dp).
  destruct (narrow_is (t_mean s) Fm) as [Nm Vm]; [apply Rabs_lt; lra|]. destruct (narrow_is (t_deviation s) Fd) as [Nd Vd].
  { pose proof (Pow 121%Z ltac:(lia)) as Q. change 121%Z with (Z.of_nat 121) in Q. rewrite bpow_pow in Q. rewrite Rabs_pos_eq by exact Dr. assert (hi - lo <= 2 ^ 121) by lra. specialize (Q H). lra. }
  unfold m, column_metadata. fold s. cbn [mean standard_deviation is_standardized]. split; [exact Nm|]. split; [exact Nd|]. rewrite Vm, Vd. split; [exact Rm|]. split; [exact Dr|]. split; [exact Pow|].
  intros St. destruct (double_of_is 1 ltac:(cbn; lia)) as [F1 V1]. apply (dlt_is double1 (t_deviation s) F1 Fd) in St. unfold double1 in St. rewrite V1 in St. change (INR 1) with 1 in St. split; [rewrite <- (rnd_id 1 F32_1); apply rnd_le; lra|apply D1; exact St].
Qed.
Print Assumptions float_column_statistics.

(** So the metadata of a column is as the theorems about scaling need it. *)
Theorem float_column_usable : forall tensors K, Forall (Forall is_number) tensors -> (forall y, In y (concat tensors) -> Rabs (number y) <= K) -> 1 <= K <= 2 ^ 120 ->
  (Z.of_nat (length (concat tensors)) <= 1048576)%Z -> (exists y z, In y (concat tensors) /\ In z (concat tensors) /\ number y <> number z) -> usable (column_metadata tensors) K.
Proof.
  intros ts K Ft B [K1 HK] HL D. destruct (float_column_statistics ts K Ft B HK HL D) as (Nm & Nd & Rm & _ & _ & St). destruct D as (y & z & Iy & Iz & Ne). assert (N : concat ts <> []) by (intros E; rewrite E in Iy; exact Iy).
  destruct (column_range ts Ft N) as (Nl & Nh & (a & Ia & Va) & (b & Ib & Vb) & R). pose proof (B a Ia) as Ba. pose proof (B b Ib) as Bb. rewrite <- Va in Ba. rewrite <- Vb in Bb.
  split; [reflexivity|]. split; [exact K1|]. split; [intros f [->|[->|[->| ->]]]; assumption|]. split; [exact Ba|]. split; [exact Bb|]. split; [pose proof (R y Iy); pose proof (R z Iz); lra|].
  intros S. destruct (St S) as [S1 S2]. apply Rabs_le_inv in Ba. apply Rabs_le_inv in Bb. split; [apply Rabs_le; lra|]. split; [exact S1|lra].
Qed.
Print Assumptions float_column_usable.

(** The numbers of a column that is standardised survive. *)
Theorem float_standardised_column_survives : forall tensors K x, Forall (Forall is_number) tensors -> (forall y, In y (concat tensors) -> Rabs (number y) <= K) -> 1 <= K <= 2 ^ 59 ->
  (Z.of_nat (length (concat tensors)) <= 1048576)%Z -> is_standardized float32 (column_metadata tensors) = true -> (exists y z, In y (concat tensors) /\ In z (concat tensors) /\ number y <> number z) -> In x (concat tensors) ->
  let m := column_metadata tensors in
  is_number (unscale float32 m (scale float32 m x)) /\ Rabs (number (unscale float32 m (scale float32 m x)) - number x) <= 48 * unit_error * (K * number (standard_deviation float32 m)).
Proof.
  intros ts K x Ft B [K1 HK] HL S D Ix m. assert (P : 2 ^ 59 <= 2 ^ 120) by (apply Rle_pow; [lra|lia]). pose proof (float_column_usable ts K Ft B (conj K1 (Rle_trans _ _ _ HK P)) HL D) as U. fold m in U.
  destruct (float_column_statistics ts K Ft B (Rle_trans _ _ _ HK P) HL D) as (_ & _ & _ & D0 & Dn & _). fold m in D0, Dn. pose proof U as (_ & _ & _ & Bl & Bh & _). apply Rabs_le_inv in Bl. apply Rabs_le_inv in Bh.
  assert (Sd : number (standard_deviation float32 m) <= 2 ^ 60). { change 60%nat with (Z.to_nat 60). rewrite <- bpow_pow. change (Z.of_nat (Z.to_nat 60)) with 60%Z. apply Dn; [lia|]. change 60%Z with (Z.of_nat 60). rewrite bpow_pow. change (2 ^ 60) with (2 * 2 ^ 59). lra. }
  apply float_standardised_number_survives; [exact U|exact S| | |exact (B x Ix)].
  - apply Rle_trans with (2 ^ 59 * 2 ^ 60); [apply Rmult_le_compat; lra|]. rewrite <- pow_add. apply Rle_pow; [lra|lia].
  - apply in_concat in Ix as (t & It & Ix). rewrite Forall_forall in Ft. specialize (Ft t It). rewrite Forall_forall in Ft. exact (Ft x Ix).
Qed.
Print Assumptions float_standardised_column_survives.

(** Two different numbers of a column are stored as numbers, and the greater is not stored as a smaller number. *)
Theorem float_column_keeps_order : forall tensors K x y, Forall (Forall is_number) tensors -> (forall z, In z (concat tensors) -> Rabs (number z) <= K) -> K <= 2 ^ 120 ->
  (Z.of_nat (length (concat tensors)) <= 1048576)%Z -> In x (concat tensors) -> In y (concat tensors) -> number x < number y ->
  is_number (scale float32 (column_metadata tensors) x) /\ is_number (scale float32 (column_metadata tensors) y) /\
  number (scale float32 (column_metadata tensors) x) <= number (scale float32 (column_metadata tensors) y).
Proof.
  intros ts K x y Ft B HK HL Ix Iy Lt. assert (P : 1 <= 2 ^ 120) by (apply pow_R1_Rle; lra). assert (N : concat ts <> []) by (intros E; rewrite E in Iy; exact Iy).
  destruct (column_range ts Ft N) as (_ & _ & _ & _ & R). assert (Num : forall x, In x (concat ts) -> is_number x) by (intros z Iz; apply in_concat in Iz as (t & It & Iz); rewrite Forall_forall in Ft; specialize (Ft t It); rewrite Forall_forall in Ft; exact (Ft z Iz)).
  assert (U : usable (column_metadata ts) (Rmax 1 K)). { apply float_column_usable; try assumption; [intros z Iz; eapply Rle_trans; [exact (B z Iz)|apply Rmax_r]|split; [apply Rmax_l|apply Rmax_lub; lra]|]. exists x, y. split; [exact Ix|]. split; [exact Iy|lra]. }
  pose proof (float_scaling_keeps_order (column_metadata ts) (Rmax 1 K) x y U (Rmax_lub _ _ _ P HK) (Num x Ix) (Num y Iy) (proj1 (R x Ix)) (Rlt_le _ _ Lt) (proj2 (R y Iy))) as G. exact G.
Qed.
Print Assumptions float_column_keeps_order.

(** Finding: every number of a column whose numbers are all the same is stored as NaN. *)
Theorem float_constant_column_is_lost : forall tensors x, Forall (Forall is_number) tensors -> (Z.of_nat (length (concat tensors)) < 9007199254740992)%Z ->
  (forall y z, In y (concat tensors) -> In z (concat tensors) -> number y = number z) -> In x (concat tensors) -> is_nan 24 128 (scale float32 (column_metadata tensors) x) = true.
Proof.
  intros ts x Ft HL Same Ix. assert (N : concat ts <> []) by (intros E; rewrite E in Ix; exact Ix). destruct (column_range ts Ft N) as (Nl & Nh & (a & Ia & Va) & (b & Ib & Vb) & _). rewrite (Same a x Ia Ix) in Va. rewrite (Same b x Ib Ix) in Vb.
  assert (Num : forall y, In y (concat ts) -> is_number y /\ number y = number x). { intros y Iy. split; [|exact (Same y x Iy Ix)]. apply in_concat in Iy as (t & It & Iy). rewrite Forall_forall in Ft. specialize (Ft t It). rewrite Forall_forall in Ft. exact (Ft y Iy). }
  destruct (Num x Ix) as [Nx _]. assert (C0 : steady (number x) 0 tally0). { assert (V0 : val64 double0 = 0) by reflexivity. do 5 (split; [reflexivity|]). split; [intros _; exact V0|]. intros Q. now contradiction Q. }
  destruct (steady_tensors (number x) ts 0 tally0 HL C0 Num) as [C D]. cbn [Nat.add] in C. assert (Nts : ts <> []) by (intros E; apply N; rewrite E; reflexivity). specialize (D Nts).
  assert (K0 : (0 < length (concat ts))%nat) by (destruct (concat ts); [congruence|cbn; lia]). destruct (steady_deviation _ _ _ K0 C D) as [Fd Vd].
  assert (S : is_standardized float32 (column_metadata ts) = false). { unfold column_metadata. cbn [is_standardized]. destruct (dlt _ _) eqn:L; [|reflexivity]. exfalso. destruct (double_of_is 1 ltac:(cbn; lia)) as [F1 V1]. apply (dlt_is double1 _ F1 Fd) in L. unfold double1 in L. rewrite V1, Vd in L. change (INR 1) with 1 in L. lra. }
  unfold scale. rewrite S. change (is_normalized float32 (column_metadata ts)) with true. cbv iota. unfold normalise. cbn [float32 a_sub a_div num]. set (lo := min_value float32 (column_metadata ts)) in *. set (hi := max_value float32 (column_metadata ts)) in *.
  assert (P : 0 <= 2 ^ 127) by (apply pow_le; lra). destruct (sub_is x lo Nx Nl) as [N1 V1]; [rewrite Va, Rminus_diag_eq, Rabs_R0 by reflexivity; exact P|]. destruct (sub_is hi lo Nh Nl) as [N2 V2]; [rewrite Va, Vb, Rminus_diag_eq, Rabs_R0 by reflexivity; exact P|].
  rewrite Va, Rminus_diag_eq, rnd_0 in V1 by reflexivity. rewrite Va, Vb, Rminus_diag_eq, rnd_0 in V2 by reflexivity. destruct (zero_is _ N1 V1) as [s ->]. destruct (zero_is _ N2 V2) as [s' ->]. now destruct s, s'.
Qed.
Print Assumptions float_constant_column_is_lost.

(** The column 7, 7, 7. *)
Example ex_constant : is_nan 24 128 (scale float32 (column_metadata [[of_Z 7; of_Z 7]; [of_Z 7]]) (of_Z 7)) = true.
Proof.
  destruct (FloatAct_Proofs.small_is 7 ltac:(cbn; lia)) as [N V]. apply float_constant_column_is_lost; [repeat constructor; exact N|cbn; lia|intros y z [<-|[<-|[<-|[]]]] [<-|[<-|[<-|[]]]]; reflexivity|now left].
Qed.

(** The numbers 1 and 9: deviation 4, mean 5. *)
Example ex_column : let ts := [[of_Z 1]; [of_Z 9]] in let m := column_metadata ts in
  is_standardized float32 m = true /\ number (standard_deviation float32 m) = 4 /\ 1 <= number (mean float32 m) <= 9 /\ Rabs (number (unscale float32 m (scale float32 m (of_Z 9))) - 9) <= 48 * unit_error * (9 * 4).
Proof.
  cbv zeta. destruct (FloatAct_Proofs.small_is 1 ltac:(cbn; lia)) as [N1 V1]. destruct (FloatAct_Proofs.small_is 9 ltac:(cbn; lia)) as [N2 V2]. destruct (FloatAct_Proofs.small_is 4 ltac:(cbn; lia)) as [N4 V4]. destruct (FloatAct_Proofs.small_is 5 ltac:(cbn; lia)) as [N5 V5].
  set (m := column_metadata [[of_Z 1]; [of_Z 9]]). assert (S : is_standardized float32 m = true) by reflexivity. assert (E : standard_deviation float32 m = of_Z 4) by (apply to_bits_inj; reflexivity). assert (E5 : mean float32 m = of_Z 5) by (apply to_bits_inj; reflexivity).
  split; [exact S|]. rewrite E, V4, E5, V5. split; [reflexivity|]. split; [lra|].
  destruct (float_standardised_column_survives [[of_Z 1]; [of_Z 9]] 9 (of_Z 9)) as [_ H].
  - repeat (constructor; [repeat (constructor; [assumption|]); constructor|]). constructor.
  - intros y [<-|[<-|[]]]; [rewrite V1|rewrite V2]; rewrite Rabs_pos_eq by lra; lra.
  - split; [lra|]. apply Rle_trans with (2 ^ 4); [lra|]. apply Rle_pow; [lra|lia].
  - cbn. lia.
  - exact S.
  - exists (of_Z 1), (of_Z 9). split; [now left|]. split; [right; now left|]. rewrite V1, V2. lra.
  - right. now left.
  - fold m in H. rewrite E, V4, V2 in H. exact H.
Qed.
