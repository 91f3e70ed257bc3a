(** C113: normalization as it is computed, with [float] and [double], beside the exact one. *)
From Coq Require Import List Arith Bool ZArith Reals Lia Lra.
From Flocq Require Import Core IEEE754.BinarySingleNaN IEEE754.Binary IEEE754.Bits.
From Verif Require Import Outcome Tensor_Model Tensor_Spec F32_Model F32_Proofs Reduce_Model Activation_Model Layer_Model FloatNet_Model FloatNet_Spec FloatNet_Proofs FloatSoft_Proofs FloatAct_Proofs FloatNet_Props FloatOpt_Model FloatOpt_Proofs FloatRun_Spec FloatLayer_Proofs FloatNorm_Spec FloatNorm_Proofs FloatNorm_Layer.
From Verif Require Reduce_Spec Reduce_Proofs.
Import ListNotations.
Local Open Scope R_scope.

(** Exact normalization keeps whatever it gets within four times the root of the number of elements. *)
Theorem normalization_is_bounded : forall (x : T) r c k f, is_tensor x r c k f ->
  exists t p g, normalization_forward [x] = Ok (t, p) /\ is_tensor t r c k g /\
    forall i j l, (i < r)%nat -> (j < c)%nat -> (l < k)%nat -> Rabs (g i j l) <= 4 * sqrt (INR (r * c * k)).
Proof. exact normalization_size. Qed.

(** In [float] it stays near the exact one when what arrives is near the exact one and one exact element is not too small. *)
Theorem float_normalization_follows : forall (x : T) (y : FT) r c k f w i o, is_tensor x r c k f -> near i x y ->
  (exists a j l, (a < r)%nat /\ (j < c)%nat /\ (l < k)%nat /\ w <= Rabs (f a j l)) -> normalization_bounds (r * c * k) w i o ->
  exists t p u, normalization_forward [x] = Ok (t, p) /\ float_normalization [y] = Ok u /\ near o t u.
Proof. exact normalization_near. Qed.

(** For numbers that are given, the largest of any usual size: numbers come out, near the exact ones. *)
Theorem float_normalization_is_close : forall (y : FT) r c k f most, numbers y r c k f -> (2 <= r * c * k)%nat -> INR (r * c * k) <= 1048576 ->
  (forall i j l, (i < r)%nat -> (j < c)%nat -> (l < k)%nat -> Rabs (f i j l) <= most) -> (exists i j l, (i < r)%nat /\ (j < c)%nat /\ (l < k)%nat /\ Rabs (f i j l) = most) ->
  / 2 ^ 48 <= most <= 2 ^ 60 ->
  exists t p g u h, normalization_forward [exact y] = Ok (t, p) /\ is_tensor t r c k g /\ float_normalization [y] = Ok u /\ numbers u r c k h /\
    forall i j l, (i < r)%nat -> (j < c)%nat -> (l < k)%nat -> Rabs (h i j l - g i j l) <= normalization_rounding (r * c * k).
Proof.
  intros y r c k f M Ny H2 Hn Hb (a & b & d & Ha & Hj & Hl & HM) HR. pose proof (exact_tensor y r c k f Ny) as Tx.
  assert (N0 : near {| largest := M; error := 0 |} (exact y) y). { eapply near_join; [exact Tx|exact Ny|]. intros i j l Hi Hj' Hl'. cbn [largest error]. split; [now apply Hb|]. rewrite Rminus_diag_eq by reflexivity. rewrite Rabs_R0. lra. }
  set (n := (r * c * k)%nat) in *. assert (HN : 2 <= INR n) by (replace 2 with (INR 2) by (cbn; lra); apply le_INR; exact H2). assert (PM : 0 < M) by (assert (0 < / 2 ^ 48) by (apply Rinv_0_lt_compat; apply pow_lt; lra); lra).
  destruct (normalization_near (exact y) y r c k f M {| largest := M; error := 0 |} {| largest := 4 * sqrt (INR n); error := normalization_rounding n |} Tx N0) as (t & p & u & E1 & E2 & N1).
  - exists a, b, d. repeat split; try assumption. lra.
  - fold n. unfold normalization_bounds. cbn [largest error]. cbv zeta. rewrite Rplus_0_r. set (q := sqrt (8 * INR n)). assert (Q2 : q * q = 8 * INR n) by (apply sqrt_sqrt; lra). assert (Q1 : 1 <= q) by (unfold q; rewrite <- sqrt_1; apply sqrt_le_1; lra).
    assert (Q3 : q <= 2 ^ 12). { unfold q. rewrite <- (sqrt_square (2 ^ 12)) by (apply pow_le; lra). apply sqrt_le_1; [lra|apply Rle_0_sqr|]. rewrite <- pow_add. change (12 + 12)%nat with (1 + 23)%nat. rewrite pow_add. replace (2 ^ 23) with (8 * 1048576) by lra. lra. }
    assert (DD : M / q * (M / q) = M * M / (8 * INR n)) by (rewrite <- Q2; field; lra). assert (PMM : 0 < M * M) by (apply Rmult_lt_0_compat; lra). rewrite DD, double_value, !Rmult_0_r, !Rplus_0_l.
    split; [lra|]. split; [lra|]. split; [|split; [|split; [lra|]]].
    + apply (Rmult_le_reg_r q); [lra|]. unfold Rdiv. rewrite Rmult_assoc, Rinv_l, Rmult_1_r by lra. apply Rle_trans with (/ 2 ^ 60 * 2 ^ 12); [apply Rmult_le_compat_l; [left; apply Rinv_0_lt_compat; apply pow_lt; lra|exact Q3]|]. replace (/ 2 ^ 60 * 2 ^ 12) with (/ 2 ^ 48); [lra|]. change 60%nat with (12 + 48)%nat. rewrite pow_add, Rinv_mult, Rmult_comm, <- Rmult_assoc, Rinv_r, Rmult_1_l by (apply pow_nonzero; lra). reflexivity.
    + apply (Rmult_le_reg_r (64 * INR n)); [lra|]. replace (M * M / (8 * INR n) / 8 * (64 * INR n)) with (M * M) by (field; lra). replace (70 * / 9007199254740992 * (INR n * (M * M)) * (64 * INR n)) with (M * M * (4480 * / 9007199254740992 * (INR n * INR n))) by ring. rewrite <- (Rmult_1_r (M * M)) at 2. apply Rmult_le_compat_l; [lra|]. assert (INR n * INR n <= 1048576 * 1048576) by (apply Rmult_le_compat; lra). lra.
    + right. unfold normalization_rounding. fold q. rewrite double_value. rewrite <- Q2. replace (INR n) with (q * q / 8) by lra. field. lra.
  - destruct (normalization_size (exact y) r c k f Tx) as (t' & p' & g & E3 & Tt & _). rewrite E1 in E3. injection E3 as <- <-. destruct (near_split _ _ _ _ _ _ _ Tt N1) as [Nu Hu]. eexists t, p, g, u, _. split; [exact E1|]. split; [exact Tt|]. split; [exact E2|]. split; [exact Nu|]. intros i j l Hi Hj' Hl'. exact (proj2 (Hu i j l Hi Hj' Hl')).
Qed.

Lemma over_one : forall x, x / 1 = x. Proof. intros x. field. Qed.
(** A single number, whichever it is, becomes 0. *)
Theorem float_normalization_of_one : forall (y : FT) f, numbers y 1 1 1 f ->
  Rabs (f 0%nat 0%nat 0%nat) <= 2 ^ 127 -> exists u, float_normalization [y] = Ok u /\ numbers u 1 1 1 (fun _ _ _ => 0).
Proof.
  intros y f Ny Hb. destruct (numbers_tensor _ _ _ _ _ Ny) as [Ty Hn]. destruct (Hn 0%nat 0%nat 0%nat) as [N0 V0]; try lia. unfold float_normalization. rewrite (float_spread_is y 1 1 1 (element y) Ty). cbn [Reduce_Spec.elements seq map concat app fold_left]. cbv zeta. set (v := element y 0%nat 0%nat 0%nat) in *. destruct (widen_is v N0) as [Fw Vw]. rewrite V0 in Vw. set (x := f 0%nat 0%nat 0%nat) in *.
  assert (P127 : 2 ^ 127 <= 2 ^ 500) by (apply Rle_pow; [lra|lia]). assert (P0 : 0 <= 2 ^ 500) by (apply pow_le; lra). destruct (double_of_is (1 * 1 * 1) ltac:(cbn; lia)) as [F1 V1]. change (INR (1 * 1 * 1)) with 1 in V1. set (one := double_of (1 * 1 * 1)) in *. assert (X64 : F64 x) by (rewrite <- Vw; apply F64_val). assert (X32 : F32 x) by (rewrite <- V0; apply number_format). assert (Z64 : F64 0) by apply generic_format_0.
  unfold float_spread. destruct (dsub_is (widen v) double0 Fw eq_refl) as [Fd Vd]; [change (val64 double0) with 0; rewrite Vw, Rminus_0_r; lra|]. change (val64 double0) with 0 in Vd. rewrite Vw, Rminus_0_r, rnd64_id in Vd by exact X64. set (delta := dsub (widen v) double0) in *.
  destruct (ddiv_is delta one Fd) as [Fq Vq]; [rewrite V1; lra|rewrite V1, Vd, over_one; lra|]. rewrite V1, Vd, over_one, rnd64_id in Vq by exact X64. set (step := ddiv delta one) in *.
  destruct (dadd_is double0 step eq_refl Fq) as [Fm Vm]; [change (val64 double0) with 0; rewrite Vq, Rplus_0_l; lra|]. change (val64 double0) with 0 in Vm. rewrite Vq, Rplus_0_l, rnd64_id in Vm by exact X64. set (mean := dadd double0 step) in *.
  destruct (dsub_is (widen v) mean Fw Fm) as [Fe Ve]; [rewrite Vw, Vm, Rminus_diag_eq, Rabs_R0 by reflexivity; lra|]. rewrite Vw, Vm, Rminus_diag_eq, rnd64_id in Ve by (exact Z64 || reflexivity). set (delta2 := dsub (widen v) mean) in *.
  destruct (dmul_is delta delta2 Fd Fe) as [Fp Vp]; [rewrite Ve, Rmult_0_r, Rabs_R0; lra|]. rewrite Ve, Rmult_0_r, rnd64_id in Vp by exact Z64. set (square := dmul delta delta2) in *.
  destruct (dadd_is double0 square eq_refl Fp) as [Fs Vs]; [change (val64 double0) with 0; rewrite Vp, Rplus_0_l, Rabs_R0; lra|]. change (val64 double0) with 0 in Vs. rewrite Vp, Rplus_0_l, rnd64_id in Vs by exact Z64. set (M2 := dadd double0 square) in *. cbn [fst snd].
  destruct (ddiv_is M2 one Fs) as [Fv Vv]; [rewrite V1; lra|rewrite V1, Vs, over_one, Rabs_R0; lra|]. rewrite V1, Vs, over_one, rnd64_id in Vv by exact Z64. rewrite (proj2 (deq_is (ddiv M2 one) double0 Fv eq_refl) Vv). cbn [obind fst snd].
  eexists. split; [reflexivity|]. destruct (narrow_is mean Fm) as [Nm Wm]; [rewrite Vm; now apply in_range|]. rewrite Vm, rnd_id in Wm by exact X32. destruct (sub_is v (narrow mean) N0 Nm) as [Na Va]; [rewrite V0, Wm; fold x; rewrite Rminus_diag_eq, Rabs_R0 by reflexivity; apply pow_le; lra|]. rewrite V0, Wm in Va. fold x in Va. rewrite Rminus_diag_eq, rnd_0 in Va by reflexivity. destruct float1_is as [N1 E1].
  destruct (div_is (fsub v (narrow mean)) float1 Na) as [Nb Vb]; [rewrite E1; lra|rewrite Va, E1, over_one, Rabs_R0; apply pow_le; lra|]. rewrite Va, E1, over_one, rnd_0 in Vb.
  destruct Ty as (E2 & E3 & E4 & E5). split; [exact E2|]. split; [exact E3|]. split; [exact E4|]. intros i j l Hi Hj Hl. assert (i = 0 /\ j = 0 /\ l = 0)%nat as (-> & -> & ->) by lia. eexists. cbn [transform get]. rewrite (E5 0%nat 0%nat 0%nat) by lia. cbn [obind]. split; [reflexivity|]. split; [exact Nb|exact Vb].
Qed.

(** Numbers can become none: two elements, 0 and the smallest [float], are divided by a deviation that is 0 as a [float] although it is not 0. *)
Definition least_number : F := b32_of_bits 1.
Theorem normalization_divides_by_zero_refuted : exists y f, numbers y 1 2 1 f /\ exists u x z, float_normalization [y] = Ok u /\
  get u 0 0 0 = Ok x /\ is_nan 24 128 x = true /\ get u 0 1 0 = Ok z /\ z = plus_infinity.
Proof.
  exists (row [float0; least_number]), (fun _ j _ => match j with O => 0 | _ => number least_number end). split.
  - split; [reflexivity|]. split; [reflexivity|]. split; [reflexivity|]. intros i [|[|j]] l Hi Hj Hl; [| |lia]; eexists; (split; [reflexivity|]); (split; [reflexivity|]); reflexivity.
  - eexists _, _, _. split; [reflexivity|]. split; [reflexivity|]. split; [reflexivity|]. split; reflexivity.
Qed.
(** And large numbers become infinite, although no exact result is larger than 6. *)
Definition greatest_number : F := b32_of_bits 2139095039.
Theorem normalization_overflow_refuted : exists y f, numbers y 1 2 1 f /\ exists u, float_normalization [y] = Ok u /\ get u 0 0 0 = Ok plus_infinity.
Proof.
  exists (row [greatest_number; b32_opp greatest_number]), (fun _ j _ => match j with O => number greatest_number | _ => number (b32_opp greatest_number) end). split.
  - split; [reflexivity|]. split; [reflexivity|]. split; [reflexivity|]. intros i [|[|j]] l Hi Hj Hl; [| |lia]; eexists; (split; [reflexivity|]); (split; [reflexivity|]); reflexivity.
  - eexists. split; reflexivity.
Qed.

(** Four numbers. *)
Example ex_normalization : exists t p g u h, normalization_forward [exact (row [of_Z 1; of_Z (-2); of_Z 3; of_Z 0])] = Ok (t, p) /\ is_tensor t 1 4 1 g /\ float_normalization [row [of_Z 1; of_Z (-2); of_Z 3; of_Z 0]] = Ok u /\ numbers u 1 4 1 h /\
  forall i j l, (i < 1)%nat -> (j < 4)%nat -> (l < 1)%nat -> Rabs (h i j l - g i j l) <= normalization_rounding 4.
Proof.
  apply (float_normalization_is_close _ 1 4 1 (fun _ j _ => nth j [1; -2; 3; 0] 0) 3).
  - split; [reflexivity|]. split; [reflexivity|]. split; [reflexivity|]. intros i j l Hi Hj Hl. destruct j as [|[|[|[|j]]]]; [| | | |lia]; eexists; (split; [reflexivity|]); cbn [nth]; match goal with |- is_number (of_Z ?z) /\ _ => apply (small_is z); cbn; lia end.
  - cbn. lia.
  - cbn. lra.
  - intros i j l Hi Hj Hl. destruct j as [|[|[|[|j]]]]; [| | | |lia]; cbn [nth]; apply Rabs_le; lra.
  - exists 0%nat, 2%nat, 0%nat. repeat split; try lia. cbn [nth]. apply Rabs_pos_eq. lra.
  - split; [apply Rle_trans with 1; [rewrite <- Rinv_1; apply Rinv_le_contravar; [lra|apply pow_R1_Rle; lra]|lra]|apply Rle_trans with (2 ^ 2); [lra|apply Rle_pow; [lra|lia]]].
Qed.
(** The rounding of four numbers is at most 1/200000. *)
Example ex_rounding : normalization_rounding 4 <= / 200000.
Proof.
  unfold normalization_rounding. rewrite unit_value, double_value. replace (INR 4) with 4 by (cbn; lra). assert (sqrt (8 * 4) <= 6) by (rewrite <- (sqrt_square 6) by lra; apply sqrt_le_1; lra). pose proof (sqrt_pos (8 * 4)). apply Rle_trans with (6 * (12 * / 16777216 + 1680 * / 9007199254740992 * (4 * 4))); [apply Rmult_le_compat_r; lra|lra].
Qed.
Example ex_one : exists u, float_normalization [row [of_Z 7]] = Ok u /\ numbers u 1 1 1 (fun _ _ _ => 0).
Proof.
  apply (float_normalization_of_one _ (fun _ _ _ => 7)).
  - split; [reflexivity|]. split; [reflexivity|]. split; [reflexivity|]. intros i j l Hi Hj Hl. destruct j as [|j]; [|lia]. eexists. split; [reflexivity|]. apply (small_is 7 ltac:(cbn; lia)).
  - rewrite Rabs_pos_eq by lra. apply Rle_trans with (2 ^ 3); [lra|]. apply Rle_pow; [lra|lia].
Qed.

Print Assumptions normalization_is_bounded.
Print Assumptions float_normalization_follows.
Print Assumptions float_normalization_is_close.
Print Assumptions float_normalization_of_one.
Print Assumptions normalization_divides_by_zero_refuted.
Print Assumptions normalization_overflow_refuted.
