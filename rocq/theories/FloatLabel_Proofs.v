(** Proofs about the label chosen by a prediction in [float]. *)
From Coq Require Import List Arith Bool ZArith Reals Lia Lra.
From Flocq Require Import Core Relative Plus_error IEEE754.BinarySingleNaN IEEE754.Binary IEEE754.Bits.
From Verif Require Import Outcome Tensor_Model Tensor_Spec F32_Model F32_Proofs Reduce_Model Activation_Model FloatNet_Model FloatNet_Spec FloatNet_Proofs FloatSoft_Proofs FloatAct_Proofs FloatExp_Proofs FloatRun_Spec FloatFaith_Proofs.
From Verif Require Reduce_Spec Reduce_Proofs FloatNet_Props.
Import ListNotations.
Local Open Scope R_scope.

Lemma rest_number : forall v top, is_number v -> rest top v = Rmax (rnd (number v - top)) (- max32).
Proof. intros v top N. destruct v as [s|s|s pl e|s m e b]; try discriminate N; reflexivity. Qed.
Section Clear.
Context (e : F -> F) (E : exponential_like e) (M : monotone e) (gap : F) (H1 : resolves e gap).
Context (l : list F) (W : workable l).
Notation part := (fun v => e (fsub v (top_of l))).
Lemma probability_clear : forall v w, In v l -> In w l -> is_number v -> is_number w -> (forall x, In x l -> Reduce_Spec.order x <= number w) -> number v + number gap <= number w ->
  number (fdiv (part v) (denominator e l)) < number (fdiv (part w) (denominator e l)).
Proof.
  intros v w Iv Iw Nv Nw Top L. destruct (top_is l W) as (It & Nt & Lt). assert (Tw : number (top_of l) = number w). { pose proof (Top _ It) as A. rewrite (order_number _ Nt) in A. pose proof (Lt w Iw) as B. rewrite (order_number _ Nw) in B. lra. }
  destruct (probability_is e E l W v Iv) as (_ & Pv & _). destruct (probability_is e E l W w Iw) as (_ & Pw & _). cbv beta in Pv, Pw. rewrite Pv, Pw. clear Pv Pw. destruct (denominator_is e E l W) as (Nd & D1 & _). pose proof (number_bounds (denominator e l)) as D2. set (D := number (denominator e l)) in *.
  destruct W as [W1 _]. pose proof max_pos as P. destruct H1 as (Gn & Gp & Gr). set (minus := fmul (of_Z (-1))).
  assert (Q1 : is_number (minus gap) /\ number (minus gap) = - number gap).
  { destruct (minus_is gap (number_not_NaN _ Gn)) as [A1 A2]. fold (minus gap) in A1, A2. rewrite (order_number _ Gn) in A2. pose proof (number_bounds gap) as A3. assert (A4 : is_number (minus gap)) by (destruct (infinite_or_number _ A1) as [Q|[Q|Q]]; [exact Q| |]; rewrite Q in A2; [change (order plus_infinity) with max32 in A2|change (order minus_infinity) with (- max32) in A2]; lra). split; [exact A4|]. now rewrite (order_number _ A4) in A2. }
  destruct Q1 as [N1 V1].
  assert (Qw : number (e (fsub w (top_of l))) = 1).
  { destruct (W1 w Iw) as [A1 A2]. destruct (take_away w (top_of l) A1 A2 Nt (Lt w Iw)) as (B1 & B2 & _). rewrite (rest_number _ _ Nw), Tw, Rminus_diag_eq, rnd_0, Rmax_left in B2 by (reflexivity || lra).
    assert (Nn : is_number (fsub w (top_of l))). { destruct (infinite_or_number _ B1) as [Q|[Q|Q]]; [exact Q| |]; rewrite Q in B2; [change (order plus_infinity) with max32 in B2|change (order minus_infinity) with (- max32) in B2]; lra. }
    rewrite (order_number _ Nn) in B2. destruct E as (_ & _ & _ & E4). apply (E4 _ Nn B2). }
  assert (Qv : 0 <= number (e (fsub v (top_of l))) <= 1 - 16 * unit_error).
  { destruct (part_fraction e E l (conj W1 (ex_intro _ w (conj Iw Nw))) v Iv) as [F1 F2]. split; [apply F2|]. destruct (W1 v Iv) as [A1 A2]. destruct (take_away v (top_of l) A1 A2 Nt (Lt v Iv)) as (B1 & B2 & _). 
    assert (O1 : order (fsub v (top_of l)) <= order (minus gap)). { rewrite (order_number _ N1), V1, B2, (rest_number _ _ Nv), Tw. pose proof (number_bounds gap) as GB. apply Rmax_lub; [|lra]. apply rnd_le_F; [apply generic_format_opp; apply generic_format_B2R|lra]. }
    assert (O2 := M _ _ B1 (number_not_NaN _ N1) O1). pose proof (Gr _ N1 V1) as O3. change (order (e (fsub v (top_of l))) <= order (e (minus gap))) in O2. change (order (e (minus gap)) <= 1 - 16 * unit_error) in O3. rewrite (order_number (e (fsub v (top_of l)))) in O2 by exact F1. lra. }
  rewrite Qw. set (q := number (e (fsub v (top_of l)))) in *. clearbody q D. pose proof (rounded_error (q / D)) as R1. pose proof (rounded_error (1 / D)) as R2. pose proof FloatNet_Props.unit_value as U.
  assert (B1 : 0 <= q / D <= (1 - 16 * unit_error) * (1 / D)). { split; [apply Rmult_le_pos; [lra|left; apply Rinv_0_lt_compat; lra]|]. unfold Rdiv. rewrite Rmult_1_l. apply Rmult_le_compat_r; [left; apply Rinv_0_lt_compat; lra|lra]. }
  assert (B2 : bpow radix2 (-128) <= 1 / D). { change (-128)%Z with (- (128))%Z. rewrite bpow_opp. unfold Rdiv. rewrite Rmult_1_l. apply Rinv_le; [lra|]. change (bpow radix2 128) with max32. lra. }
  assert (Ty : 4194304 * tiny <= bpow radix2 (-128)). { Transparent tiny. unfold tiny. Opaque tiny. replace (/ 2 ^ 150) with (bpow radix2 (-150)) by (change (-150)%Z with (- (150))%Z; rewrite bpow_opp; f_equal; rewrite pow_IZR; reflexivity). change 4194304 with (bpow radix2 22). rewrite <- bpow_plus. apply bpow_le. lia. }
  pose proof tiny_pos as Y0. set (d := 1 / D) in *. set (x := q / D) in *. clearbody d x. rewrite (Rabs_pos_eq x) in R1 by lra. rewrite (Rabs_pos_eq d) in R2 by lra. apply Rabs_le_inv in R1. apply Rabs_le_inv in R2. rewrite U in *. lra.
Qed.
End Clear.
Lemma rounded_exp_resolves : forall gap, is_number gap -> / 524288 <= number gap -> resolves rounded_exp gap.
Proof.
  intros gap G L. split; [exact G|]. split; [lra|]. intros z N V. change (order (rounded_exp z) <= 1 - 16 * unit_error). destruct (exp_low z (number_not_NaN z N)) as [_ ->]. rewrite (order_number _ N), V. pose proof (number_bounds gap) as P. destruct (Rlt_dec (- number gap) max32); [|lra]. destruct (Rlt_dec (- max32) (- number gap)); [|lra]. eapply Rle_trans; [apply Rmin_l|].
  rewrite FloatNet_Props.unit_value. apply rnd_le_F.
  - replace (1 - 16 * / 16777216) with (F2R (Float radix2 1048575 (-20))) by (unfold F2R; cbn [Fnum Fexp]; change (bpow radix2 (-20)) with (/ 1048576); lra). apply generic_format_F2R. intros _. unfold cexp, FLT_exp. rewrite mag_F2R_Zdigits by lia. cbn. lia.
  - rewrite exp_Ropp. apply Rle_trans with (/ (1 + / 524288)); [|lra]. apply Rinv_le; [lra|]. left. apply Rle_lt_trans with (1 + number gap); [lra|]. apply exp_ineq1. lra.
Qed.
