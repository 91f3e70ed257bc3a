From Coq Require Import ZArith NArith Bool Reals Lia Lra Psatz.
From Flocq Require Import Core.Core IEEE754.BinarySingleNaN IEEE754.Binary IEEE754.Bits.
From Verif Require Import Outcome F32_Model.
Local Open Scope R_scope.

Notation fexp32 := (SpecFloat.fexp 24 128).
Notation rnd := (round radix2 fexp32 ZnearestE).
Notation F32 := (generic_format radix2 fexp32).
Notation val := (B2R 24 128).

#[global] Instance fexp32_valid : Valid_exp fexp32 := fexp_correct 24 128 prec_ok.
#[global] Instance fexp32_mono : Monotone_exp fexp32 := fexp_monotone 24 128.
Lemma fexp32_FLT : forall e, fexp32 e = FLT_exp (-149) 24 e.
Proof. reflexivity. Qed.

Lemma val_format x : F32 (val x).
Proof. apply generic_format_B2R. Qed.

Lemma rnd_le x y : x <= y -> rnd x <= rnd y.
Proof. apply round_le; auto with typeclass_instances. Qed.
Lemma rnd_id x : F32 x -> rnd x = x.
Proof. apply round_generic; auto with typeclass_instances. Qed.
Lemma rnd_0 : rnd 0 = 0.
Proof. apply round_0; auto with typeclass_instances. Qed.
Lemma F32_0 : F32 0. Proof. apply generic_format_0. Qed.
Lemma F32_bpow e : (-149 <= e)%Z -> F32 (bpow radix2 e).
Proof. intro H. apply generic_format_bpow. unfold SpecFloat.fexp, SpecFloat.emin. lia. Qed.
Lemma F32_1 : F32 1.
Proof. change 1 with (bpow radix2 0). apply F32_bpow. lia. Qed.
Lemma rnd_ge0 x : 0 <= x -> 0 <= rnd x.
Proof. intro H. rewrite <- rnd_0. now apply rnd_le. Qed.
Lemma rnd_le_F x y : F32 y -> x <= y -> rnd x <= y.
Proof. intros H L. rewrite <- (rnd_id y H). now apply rnd_le. Qed.
Lemma rnd_ge_F x y : F32 y -> y <= x -> y <= rnd x.
Proof. intros H L. rewrite <- (rnd_id y H). now apply rnd_le. Qed.

Lemma F32_Z z : (Z.abs z <= 2 ^ 24)%Z -> F32 (IZR z).
Proof.
  intro H. destruct (Z_le_gt_dec (Z.abs z) (2 ^ 24 - 1)) as [L|L].
  - apply generic_format_FLT. exists (Float radix2 z 0).
    + unfold F2R. cbn. lra.
    + cbn [Fnum]. change (Zpower radix2 24) with (2 ^ 24)%Z. lia.
    + cbn. lia.
  - assert (z = 2 ^ 24 \/ z = - 2 ^ 24)%Z as [-> | ->] by lia.
    + change (IZR (2 ^ 24)) with (bpow radix2 24). apply F32_bpow. lia.
    + change (IZR (- 2 ^ 24)) with (- bpow radix2 24). apply generic_format_opp. apply F32_bpow. lia.
Qed.

Notation max32 := (bpow radix2 128).

Lemma of_Z_correct z : Rabs (rnd (IZR z)) < max32 -> val (of_Z z) = rnd (IZR z) /\ finite (of_Z z) = true.
Proof.
  intro H. pose proof (binary_normalize_correct 24 128 prec_ok emax_ok mode_NE z 0 false) as C.
  assert (E : F2R (Float radix2 z 0) = IZR z) by (unfold F2R; cbn; lra). rewrite E in C. cbn [round_mode] in C.
  rewrite Rlt_bool_true in C by exact H. destruct C as (A & B & _). split; assumption.
Qed.

Lemma fmul_correct x y : finite x = true -> finite y = true -> Rabs (rnd (val x * val y)) < max32 ->
  val (fmul x y) = rnd (val x * val y) /\ finite (fmul x y) = true.
Proof.
  intros Fx Fy H. pose proof (Bmult_correct 24 128 eq_refl eq_refl binop_nan_pl32 mode_NE x y) as C.
  cbn [round_mode] in C. rewrite Rlt_bool_true in C by exact H. destruct C as (A & B & _). split; [exact A|].
  unfold finite in *. rewrite Fx, Fy in B. exact B.
Qed.

Lemma fadd_correct x y : finite x = true -> finite y = true -> Rabs (rnd (val x + val y)) < max32 ->
  val (fadd x y) = rnd (val x + val y) /\ finite (fadd x y) = true.
Proof.
  intros Fx Fy H. pose proof (Bplus_correct 24 128 eq_refl eq_refl binop_nan_pl32 mode_NE x y Fx Fy) as C.
  cbn [round_mode] in C. rewrite Rlt_bool_true in C by exact H. destruct C as (A & B & _). split; assumption.
Qed.

Lemma fsub_correct x y : finite x = true -> finite y = true -> Rabs (rnd (val x - val y)) < max32 ->
  val (fsub x y) = rnd (val x - val y) /\ finite (fsub x y) = true.
Proof.
  intros Fx Fy H. pose proof (Bminus_correct 24 128 eq_refl eq_refl binop_nan_pl32 mode_NE x y Fx Fy) as C.
  cbn [round_mode] in C. rewrite Rlt_bool_true in C by exact H. destruct C as (A & B & _). split; assumption.
Qed.

Lemma fdiv_correct x y : finite x = true -> val y <> 0 -> Rabs (rnd (val x / val y)) < max32 ->
  val (fdiv x y) = rnd (val x / val y) /\ finite (fdiv x y) = true.
Proof.
  intros Fx Hy H. pose proof (Bdiv_correct 24 128 eq_refl eq_refl binop_nan_pl32 mode_NE x y Hy) as C.
  cbn [round_mode] in C. rewrite Rlt_bool_true in C by exact H. destruct C as (A & B & _). split; [exact A|].
  unfold finite in *. rewrite Fx in B. exact B.
Qed.

Lemma compare_correct x y : finite x = true -> finite y = true -> b32_compare x y = Some (Rcompare (val x) (val y)).
Proof. intros. now apply Bcompare_correct. Qed.

Lemma fgt_true x y : finite x = true -> finite y = true -> (fgt x y = true <-> val y < val x).
Proof.
  intros Fx Fy. unfold fgt. rewrite (compare_correct x y Fx Fy). destruct (Rcompare_spec (val x) (val y)); split; intro; try discriminate; try lra; auto.
Qed.
Lemma flt_true x y : finite x = true -> finite y = true -> (flt x y = true <-> val x < val y).
Proof.
  intros Fx Fy. unfold flt. rewrite (compare_correct x y Fx Fy). destruct (Rcompare_spec (val x) (val y)); split; intro; try discriminate; try lra; auto.
Qed.
Lemma fle_true x y : finite x = true -> finite y = true -> (fle x y = true <-> val x <= val y).
Proof.
  intros Fx Fy. unfold fle. rewrite (compare_correct x y Fx Fy). destruct (Rcompare_spec (val x) (val y)); split; intro; try discriminate; try lra; auto.
Qed.
Lemma fge_true x y : finite x = true -> finite y = true -> (fge x y = true <-> val y <= val x).
Proof.
  intros Fx Fy. unfold fge. rewrite (compare_correct x y Fx Fy). destruct (Rcompare_spec (val x) (val y)); split; intro; try discriminate; try lra; auto.
Qed.

Lemma Btrunc_val x : Btrunc 24 128 x = Ztrunc (val x).
Proof.
  apply eq_IZR. rewrite Btrunc_correct by reflexivity. unfold round, F2R, scaled_mantissa, cexp, FIX_exp. cbn. rewrite !Rmult_1_r. reflexivity.
Qed.

Lemma to_unsigned_ok w x n : (0 <= w)%Z -> finite x = true -> IZR (Z.of_N n) <= val x < IZR (Z.of_N n + 1) -> (Z.of_N n < 2 ^ w)%Z ->
  to_unsigned w x = Ok n.
Proof.
  intros Hw Fx Hv Hn. unfold to_unsigned. rewrite Fx, Btrunc_val.
  assert (E : Ztrunc (val x) = Z.of_N n).
  { rewrite Ztrunc_floor. - now apply Zfloor_imp. - apply Rle_trans with (2 := proj1 Hv). apply IZR_le. lia. }
  rewrite E. cbv zeta. replace (0 <=? Z.of_N n)%Z with true by (symmetry; apply Z.leb_le; lia).
  replace (Z.of_N n <? 2 ^ w)%Z with true by (symmetry; apply Z.ltb_lt; lia). cbn [andb]. now rewrite N2Z.id.
Qed.

(** A finite non-negative float times something at most 1 never overflows. *)
Lemma val_lt_max x : Rabs (val x) < max32.
Proof. apply abs_B2R_lt_emax. Qed.

Lemma to_bits_inj x y : to_bits x = to_bits y -> x = y.
Proof.
  intro H. unfold to_bits in H.
  assert (P : forall z, (0 <= bits_of_b32 z)%Z) by (intro z; apply (bits_of_binary_float_range 23 8); reflexivity).
  apply (f_equal Z.of_N) in H. rewrite !Z2N.id in H by apply P.
  rewrite <- (binary_float_of_bits_of_binary_float 23 8 eq_refl eq_refl eq_refl x).
  rewrite <- (binary_float_of_bits_of_binary_float 23 8 eq_refl eq_refl eq_refl y). unfold bits_of_b32 in H. now rewrite H.
Qed.
