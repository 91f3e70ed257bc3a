From Coq Require Import NArith ZArith List Lia ZifyN ZifyNat ZifyBool Bool.
From Verif Require Import Float32_Spec HalfFloat_Model.
Open Scope N_scope.
Ltac Zify.zify_post_hook ::= Z.div_mod_to_equations.

Lemma land_exp b : N.land b 0x7F800000 = 2^23 * f32_exp b.
Proof.
  unfold f32_exp. apply N.bits_inj; intro i.
  rewrite N.land_spec. change 256 with (2^8). rewrite <- N.land_ones.
  rewrite N.mul_comm, <- N.shiftl_mul_pow2.
  change 0x7F800000 with (N.shiftl (N.ones 8) 23).
  destruct (N.lt_ge_cases i 23).
  - rewrite !N.shiftl_spec_low by auto. apply andb_false_r.
  - rewrite !N.shiftl_spec_high' by auto. rewrite N.land_spec.
    rewrite <- N.shiftr_div_pow2, N.shiftr_spec'. now replace (i - 23 + 23) with i by lia.
Qed.

Lemma land_man b : N.land b 0x007FFFFF = f32_man b.
Proof. unfold f32_man. change 0x7FFFFF with (N.ones 23). now rewrite N.land_ones. Qed.

Lemma isnan_iff b : isnan_bits b = true <-> f32_is_nan b.
Proof.
  unfold isnan_bits, f32_is_nan. rewrite land_exp, land_man.
  rewrite andb_true_iff, negb_true_iff, N.eqb_eq, N.eqb_neq.
  change 0x7F800000 with (2^23 * 255). rewrite N.mul_cancel_l by (cbn; lia). tauto.
Qed.
Lemma isinf_iff b : isinf_bits b = true <-> f32_is_inf b.
Proof.
  unfold isinf_bits, f32_is_inf. rewrite land_exp, land_man.
  rewrite andb_true_iff, !N.eqb_eq.
  change 0x7F800000 with (2^23 * 255). rewrite N.mul_cancel_l by (cbn; lia). tauto.
Qed.

Lemma finite_dec b : f32_finite b \/ f32_is_nan b \/ f32_is_inf b.
Proof.
  unfold f32_finite, f32_is_nan, f32_is_inf.
  assert (f32_exp b < 256) by (apply N.mod_upper_bound; lia).
  destruct (N.eq_dec (f32_man b) 0); lia.
Qed.

Lemma isnan_false b : f32_finite b -> isnan_bits b = false.
Proof.
  intro H. apply not_true_is_false. rewrite isnan_iff. unfold f32_finite, f32_is_nan in *. lia.
Qed.
Lemma isinf_false b : f32_finite b -> isinf_bits b = false.
Proof.
  intro H. apply not_true_is_false. rewrite isinf_iff. unfold f32_finite, f32_is_inf in *. lia.
Qed.

Lemma half_finite b : b < 2^32 -> f32_finite b -> floatToHalf b = b / 2^16.
Proof.
  intros Hb H. unfold floatToHalf. rewrite isnan_false, isinf_false by auto.
  rewrite N.shiftr_div_pow2. apply N.mod_small.
  apply N.div_lt_upper_bound; [discriminate|]. exact Hb.
Qed.

Lemma halfToFloat_eq h : h < 2^16 -> halfToFloat h = h * 2^16.
Proof.
  intro H. unfold halfToFloat. rewrite N.shiftl_mul_pow2. apply N.mod_small.
  change (2^16) with 65536 in *. change (2^32) with 4294967296. lia.
Qed.

Ltac pows := change (2^16) with 65536 in *; change (2^32) with 4294967296 in *;
  change (2^23) with 8388608 in *; change (2^31) with 2147483648 in *; change (2^7) with 128 in *;
  change (2^24) with 16777216 in *; change (2^19) with 524288 in *.

Lemma exp_half b : f32_exp (b / 2^16 * 2^16) = f32_exp b.
Proof. unfold f32_exp. pows. f_equal. lia. Qed.

Lemma half_roundtrip_finite h : h < 2^16 -> f32_finite (halfToFloat h) ->
  floatToHalf (halfToFloat h) = h.
Proof.
  intros Hh Hf. rewrite halfToFloat_eq in * by auto.
  rewrite half_finite by (auto; pows; lia). pows. lia.
Qed.

Lemma half_roundtrip_inf h : h < 2^16 -> f32_is_inf (halfToFloat h) ->
  floatToHalf (halfToFloat h) = h.
Proof.
  intros Hh Hf. rewrite halfToFloat_eq in * by auto.
  unfold floatToHalf.
  destruct (isnan_bits (h*2^16)) eqn:E.
  { apply isnan_iff in E. unfold f32_is_nan, f32_is_inf in *. lia. }
  apply isinf_iff in Hf as E2. rewrite E2.
  destruct Hf as [H1 H2]. unfold f32_exp, f32_man in *.
  assert (h = 0x7F80 \/ h = 0xFF80) as [-> | ->] by (pows; lia); reflexivity.
Qed.

Lemma half_nan_stays b : f32_is_nan b -> f32_is_nan (halfToFloat (floatToHalf b)).
Proof.
  intro H. unfold floatToHalf. apply isnan_iff in H. rewrite H.
  destruct (_ =? _); split; vm_compute; congruence.
Qed.

Lemma half_inf_exact b : b < 2^32 -> f32_is_inf b -> halfToFloat (floatToHalf b) = b.
Proof.
  intros Hb H. unfold floatToHalf.
  destruct (isnan_bits b) eqn:E.
  { apply isnan_iff in E. unfold f32_is_nan, f32_is_inf in *. lia. }
  apply isinf_iff in H as E2. rewrite E2.
  destruct H as [H1 H2]. unfold f32_exp, f32_man in *.
  assert (b = 0x7F800000 \/ b = 0xFF800000) as [-> | ->] by (pows; lia); reflexivity.
Qed.

Lemma roundtrip_value b : b < 2^32 -> f32_finite b ->
  halfToFloat (floatToHalf b) = b / 2^16 * 2^16.
Proof.
  intros Hb H. rewrite half_finite by auto. apply halfToFloat_eq.
  apply N.div_lt_upper_bound; [discriminate|exact Hb].
Qed.

Lemma stored_finite b : b < 2^32 -> f32_finite b -> f32_finite (halfToFloat (floatToHalf b)).
Proof. intros. rewrite roundtrip_value by auto. unfold f32_finite. now rewrite exp_half. Qed.

Lemma half_encode_lt b : b < 2^32 -> floatToHalf b < 2^16.
Proof.
  intro Hb. unfold floatToHalf. repeat match goal with |- context[if ?c then _ else _] => destruct c end;
  try reflexivity. apply N.mod_upper_bound. discriminate.
Qed.

Lemma half_idempotent b : b < 2^32 ->
  floatToHalf (halfToFloat (floatToHalf b)) = floatToHalf b \/
  f32_is_nan b.
Proof.
  intro Hb. destruct (finite_dec b) as [H|[H|H]]; auto; left.
  - apply half_roundtrip_finite. now apply half_encode_lt. now apply stored_finite.
  - now rewrite half_inf_exact.
Qed.

(* magnitude *)
Lemma mag_mono b b' : b <= b' -> b' < 2^31 -> f32_mag b <= f32_mag b'.
Proof.
  intros Hle Hb. unfold f32_mag.
  assert (E: b = f32_exp b * 2^23 + f32_man b).
  { unfold f32_exp, f32_man. pows. lia. }
  assert (E': b' = f32_exp b' * 2^23 + f32_man b').
  { unfold f32_exp, f32_man. pows. lia. }
  assert (Hm: f32_man b < 2^23) by (apply N.mod_upper_bound; discriminate).
  assert (Hm': f32_man b' < 2^23) by (apply N.mod_upper_bound; discriminate).
  assert (Hee: f32_exp b <= f32_exp b').
  { pows. lia. }
  set (e := f32_exp b) in *. set (e' := f32_exp b') in *.
  set (m := f32_man b) in *. set (m' := f32_man b') in *.
  clearbody e e' m m'.
  destruct (N.eqb_spec e 0), (N.eqb_spec e' 0); subst.
  - pows; lia.
  - assert (1 <= 2^(e'-1)) by (apply N.lt_pred_le, N.neq_0_lt_0, N.pow_nonzero; lia).
    nia.
  - lia.
  - destruct (N.eq_dec e e') as [->|Hne].
    + apply N.mul_le_mono_r. pows; lia.
    + assert (2 * 2^(e-1) <= 2^(e'-1)).
      { rewrite <- N.pow_succ_r'. apply N.pow_le_mono_r; lia. }
      transitivity (2^23 * (2 * 2^(e-1))).
      * assert (2^23 + m <= 2^23 * 2) by (pows; lia). nia.
      * nia.
Qed.

Definition low31 (b : N) : N := b mod 2^31.

Lemma mag_low b : f32_mag b = f32_mag (low31 b).
Proof.
  unfold f32_mag, low31.
  replace (f32_exp (b mod 2^31)) with (f32_exp b).
  replace (f32_man (b mod 2^31)) with (f32_man b). reflexivity.
  - unfold f32_man. pows. lia.
  - unfold f32_exp. pows. lia.
Qed.

Lemma sign_half b : b < 2^32 -> f32_sign (b / 2^16 * 2^16) = f32_sign b.
Proof.
  intro H. unfold f32_sign. pows.
  destruct (N.leb_spec 2147483648 b); [apply N.leb_le|apply N.leb_gt]; lia.
Qed.

Lemma man_half b : f32_man (b / 2^16 * 2^16) = f32_man b / 2^16 * 2^16.
Proof. unfold f32_man. pows. lia. Qed.

(** magnitude never grows and loses less than 2^16 in the 23-bit mantissa *)
Lemma mag_half_le b : f32_mag (b / 2^16 * 2^16) <= f32_mag b.
Proof.
  unfold f32_mag. rewrite exp_half, man_half.
  assert (f32_man b / 2^16 * 2^16 <= f32_man b) by (pows; lia).
  destruct (_ =? _); auto. apply N.mul_le_mono_r. lia.
Qed.

Lemma mag_half_err_normal b : f32_exp b <> 0 ->
  (f32_mag b - f32_mag (b / 2^16 * 2^16)) * 128 < f32_mag b.
Proof.
  intro Hn. unfold f32_mag. rewrite exp_half, man_half.
  destruct (N.eqb_spec (f32_exp b) 0); [contradiction|].
  assert (f32_man b - f32_man b / 2^16 * 2^16 < 2^16) by (pows; lia).
  assert (0 < 2^(f32_exp b - 1)) by (apply N.neq_0_lt_0, N.pow_nonzero; lia).
  set (p := 2^(f32_exp b - 1)) in *. clearbody p.
  rewrite <- N.mul_sub_distr_r.
  replace (2^23 + f32_man b - (2^23 + f32_man b / 2^16 * 2^16))
    with (f32_man b - f32_man b / 2^16 * 2^16) by (pows; lia).
  set (r := f32_man b - f32_man b / 2^16 * 2^16) in *.
  assert (r * 128 < 2^23 + f32_man b) by (pows; lia). nia.
Qed.

Lemma mag_half_err_sub b : f32_exp b = 0 ->
  f32_mag b - f32_mag (b / 2^16 * 2^16) < 2^16.
Proof.
  intro Hn. unfold f32_mag. rewrite exp_half, man_half, Hn. cbn [N.eqb]. pows. lia.
Qed.

Lemma half_sign b : b < 2^32 -> f32_finite b ->
  f32_sign (halfToFloat (floatToHalf b)) = f32_sign b.
Proof. intros. rewrite roundtrip_value by auto. now apply sign_half. Qed.

Lemma half_mag_le b : b < 2^32 -> f32_finite b ->
  f32_mag (halfToFloat (floatToHalf b)) <= f32_mag b.
Proof. intros. rewrite roundtrip_value by auto. apply mag_half_le. Qed.

Lemma half_err_normal b : b < 2^32 -> f32_finite b -> f32_exp b <> 0 ->
  (f32_mag b - f32_mag (halfToFloat (floatToHalf b))) * 128 < f32_mag b.
Proof. intros. rewrite roundtrip_value by auto. now apply mag_half_err_normal. Qed.

Lemma half_err_sub b : b < 2^32 -> f32_exp b = 0 ->
  f32_mag b - f32_mag (halfToFloat (floatToHalf b)) < 2^16.
Proof. intros. rewrite roundtrip_value by (auto; unfold f32_finite; lia). now apply mag_half_err_sub. Qed.

(* order by bits *)
Lemma units_pos b : b < 2^31 -> f32_units b = Z.of_N (f32_mag b).
Proof. intro H. unfold f32_units, f32_sign. apply N.leb_gt in H. now rewrite H. Qed.
Lemma units_neg b : 2^31 <= b -> f32_units b = Z.opp (Z.of_N (f32_mag b)).
Proof. intro H. unfold f32_units, f32_sign. apply N.leb_le in H. now rewrite H. Qed.

Lemma exp_low b : f32_exp (low31 b) = f32_exp b.
Proof. unfold low31, f32_exp. pows. lia. Qed.

Lemma mag_strict b b' : b < b' -> b' < 2^31 -> f32_mag b < f32_mag b'.
Proof.
  intros Hle Hb. unfold f32_mag.
  assert (E: b = f32_exp b * 2^23 + f32_man b).
  { unfold f32_exp, f32_man. pows. lia. }
  assert (E': b' = f32_exp b' * 2^23 + f32_man b').
  { unfold f32_exp, f32_man. pows. lia. }
  assert (Hm: f32_man b < 2^23) by (apply N.mod_upper_bound; discriminate).
  assert (Hm': f32_man b' < 2^23) by (apply N.mod_upper_bound; discriminate).
  assert (Hee: f32_exp b <= f32_exp b').
  { pows. lia. }
  set (e := f32_exp b) in *. set (e' := f32_exp b') in *.
  set (m := f32_man b) in *. set (m' := f32_man b') in *.
  clearbody e e' m m'.
  destruct (N.eqb_spec e 0), (N.eqb_spec e' 0); subst.
  - pows; lia.
  - assert (1 <= 2^(e'-1)) by (apply N.lt_pred_le, N.neq_0_lt_0, N.pow_nonzero; lia).
    nia.
  - lia.
  - assert (0 < 2^(e-1)) by (apply N.neq_0_lt_0, N.pow_nonzero; lia).
    destruct (N.eq_dec e e') as [->|Hne].
    + apply N.mul_lt_mono_pos_r; auto. pows; lia.
    + assert (2 * 2^(e-1) <= 2^(e'-1)).
      { rewrite <- N.pow_succ_r'. apply N.pow_le_mono_r; lia. }
      apply N.lt_le_trans with (2^23 * (2 * 2^(e-1))).
      * assert (2^23 + m < 2^23 * 2) by (pows; lia). nia.
      * nia.
Qed.

Lemma mag_le_inv b b' : f32_mag b <= f32_mag b' -> b < 2^31 -> b <= b' \/ 2^31 <= b'.
Proof.
  intros H Hb. destruct (N.lt_ge_cases b' (2^31)); auto. left.
  destruct (N.le_gt_cases b b') as [|C]; auto. apply mag_strict in C; auto. lia.
Qed.

Lemma half_low b : b < 2^32 -> low31 (b / 2^16 * 2^16) = low31 b / 2^16 * 2^16.
Proof. unfold low31. pows. lia. Qed.

Lemma half_mono_mag b b' : b < 2^32 -> b' < 2^32 -> f32_mag b <= f32_mag b' ->
  f32_mag (b / 2^16 * 2^16) <= f32_mag (b' / 2^16 * 2^16).
Proof.
  intros Hb Hb' H.
  rewrite (mag_low (b / 2^16 * 2^16)), (mag_low (b' / 2^16 * 2^16)), !half_low by auto.
  rewrite (mag_low b), (mag_low b') in H.
  assert (L1: low31 b < 2^31) by (apply N.mod_upper_bound; discriminate).
  assert (L2: low31 b' < 2^31) by (apply N.mod_upper_bound; discriminate).
  apply mag_le_inv in H; auto. destruct H; [|lia].
  apply mag_mono; pows; lia.
Qed.

Lemma half_monotone b b' : b < 2^32 -> b' < 2^32 -> f32_finite b -> f32_finite b' ->
  (f32_units b <= f32_units b')%Z ->
  (f32_units (halfToFloat (floatToHalf b)) <= f32_units (halfToFloat (floatToHalf b')))%Z.
Proof.
  intros Hb Hb' F F' H. rewrite !roundtrip_value by auto.
  unfold f32_units in *. rewrite !sign_half by auto.
  destruct (f32_sign b) eqn:S, (f32_sign b') eqn:S'.
  - assert (f32_mag (b' / 2^16 * 2^16) <= f32_mag (b / 2^16 * 2^16)) by (apply half_mono_mag; auto; lia). lia.
  - lia.
  - pose proof (mag_half_le b). pose proof (mag_half_le b'). lia.
  - assert (f32_mag (b / 2^16 * 2^16) <= f32_mag (b' / 2^16 * 2^16)) by (apply half_mono_mag; auto; lia). lia.
Qed.
