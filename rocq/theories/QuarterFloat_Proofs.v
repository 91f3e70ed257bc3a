From Coq Require Import NArith ZArith List Lia ZifyN ZifyNat ZifyBool Bool.
From Verif Require Import Float32_Spec HalfFloat_Proofs QuarterFloat_Model.
Import ListNotations.
Open Scope Z_scope.
Ltac Zify.zify_post_hook ::= Z.div_mod_to_equations.

Definition zrange (lo : Z) (n : nat) : list Z := map (fun i => lo + Z.of_nat i) (seq 0 n).

Lemma zrange_in lo n z : lo <= z < lo + Z.of_nat n -> In z (zrange lo n).
Proof.
  intro H. unfold zrange. apply in_map_iff. exists (Z.to_nat (z - lo)). split; [lia|].
  apply in_seq. lia.
Qed.

Definition good_bias (b : Z) : Prop := -111 <= b <= 126.

Lemma good_bias_in b : good_bias b -> In b (zrange (-111) 238).
Proof. unfold good_bias. intro. apply zrange_in. lia. Qed.

Ltac zpows := change (2^32) with 4294967296 in *; change (2^31) with 2147483648 in *;
  change (2^23) with 8388608 in *; change (2^20) with 1048576 in *; change (2^19) with 524288 in *.

(* ---- field extraction ---- *)
Lemma shr_land b w k m : 0 <= k -> 0 <= w -> m = Z.shiftl (Z.ones w) k ->
  Z.shiftr (Z.land b m) k = (b / 2^k) mod 2^w.
Proof.
  intros Hk Hw ->. rewrite Z.shiftr_land, Z.shiftr_shiftl_l by lia.
  replace (k - k) with 0 by lia. rewrite Z.shiftl_0_r, Z.land_ones by lia.
  now rewrite Z.shiftr_div_pow2 by lia.
Qed.

Lemma f_exp b : Z.shiftr (Z.land b 0x7F800000) 23 = (b / 2^23) mod 256.
Proof. now apply (shr_land b 8 23). Qed.
Lemma f_man b : Z.shiftr (Z.land b 0x00700000) 20 = (b / 2^20) mod 8.
Proof. now apply (shr_land b 3 20). Qed.
Lemma f_extra b : Z.shiftr (Z.land b 0x000FFFFF) 19 = (b / 2^19) mod 2.
Proof.
  rewrite Z.shiftr_land. change (Z.shiftr 0xFFFFF 19) with (Z.ones 1).
  rewrite Z.land_ones by lia. now rewrite Z.shiftr_div_pow2 by lia.
Qed.

Lemma u32_small z : 0 <= z < 2^32 -> u32 z = z.
Proof. intro. unfold u32. now apply Z.mod_small. Qed.
Lemma s32_small z : 0 <= z < 2^31 -> s32 z = z.
Proof.
  intro H. unfold s32. rewrite Z.mod_small by (zpows; lia).
  destruct (Z.ltb_spec z (2^31)); lia.
Qed.
Lemma s32_neg z : - 2^31 <= z < 0 -> s32 z = z.
Proof.
  intro H. unfold s32. replace (z mod 2^32) with (z + 2^32) by (zpows; lia).
  destruct (Z.ltb_spec (z + 2^32) (2^31)); zpows; lia.
Qed.
Lemma s32_id z : - 2^31 <= z < 2^31 -> s32 z = z.
Proof. intro. destruct (Z_lt_ge_dec z 0); [apply s32_neg|apply s32_small]; lia. Qed.

Lemma eff_range b : good_bias b -> good_bias (effective_bias b) /\ (b <> 0 -> effective_bias b = b).
Proof.
  unfold good_bias, effective_bias. destruct (Z.eqb_spec b 0); cbn [b2z negb]; lia.
Qed.

Lemma lor_fields s e m : 0 <= s <= 1 -> 0 <= e < 15 -> 0 <= m < 8 ->
  Z.lor (Z.lor (u32 (Z.shiftl s 7)) (u32 (Z.shiftl e 3))) (Z.land m 7) = s * 128 + e * 8 + m.
Proof.
  intros Hs He Hm.
  assert (A: forallb (fun s => forallb (fun e => forallb (fun m =>
     Z.lor (Z.lor (u32 (Z.shiftl s 7)) (u32 (Z.shiftl e 3))) (Z.land m 7) =? s * 128 + e * 8 + m)
     (zrange 0 8)) (zrange 0 15)) (zrange 0 2) = true) by (vm_cast_no_check (eq_refl true)).
  rewrite forallb_forall in A. specialize (A s (zrange_in 0 2 s ltac:(lia))).
  rewrite forallb_forall in A. specialize (A e (zrange_in 0 15 e ltac:(lia))).
  rewrite forallb_forall in A. specialize (A m (zrange_in 0 8 m ltac:(lia))).
  lia.
Qed.

(** Closed form of the encoder on finite floats. *)
Definition enc_form (b bias : Z) : Z :=
  let adj := 127 - effective_bias bias in
  let s := b / 2^31 in
  let e := (b / 2^23) mod 256 in
  let r := (b / 2^20) mod 8 in
  let x := (b / 2^19) mod 2 in
  if e >=? adj + 15 then s * 128 + 119
  else
    let c := if e <? adj then 0
             else (e - adj) * 8 + (r + b2z ((r <? 7) && (x >? 0))) in
    if s =? 1 then 128 + c
    else if c =? 0 then (if nz b && (e >=? 115) then 128 else 0)
    else c.

Lemma enc_closed b bias : good_bias bias -> 0 <= b < 2^32 -> (b / 2^23) mod 256 < 255 ->
  floatToQuarter b bias = enc_form b bias.
Proof.
  intros Hb0 Hb Hfin. unfold floatToQuarter, enc_form.
  destruct (eff_range bias Hb0) as [Hbias _].
  set (bi := effective_bias bias) in *. clearbody bi. unfold good_bias in Hbias.
  rewrite f_exp, f_man, f_extra.
  rewrite (Z.shiftr_div_pow2 b 31) by lia.
  set (s := b / 2^31). assert (Hs: 0 <= s <= 1) by (unfold s; zpows; lia).
  set (e := (b / 2^23) mod 256) in *. assert (He: 0 <= e < 255) by (unfold e in *; lia).
  set (r := (b / 2^20) mod 8). assert (Hr: 0 <= r < 8) by (unfold r; lia).
  set (x := (b / 2^19) mod 2).
  set (rm := r + b2z ((r <? 7) && (x >? 0))).
  assert (Hrm: 0 <= rm < 8).
  { unfold rm. destruct (Z.ltb_spec r 7), (x >? 0); cbn [b2z andb]; lia. }
  replace (r + b2z ((r <? 7) && (x >? 0)) * 1) with rm by (unfold rm; lia).
  cbv zeta.
  rewrite (u32_small (127 - bi)) by (zpows; lia).
  rewrite (u32_small (127 - bi + 15)) by (zpows; lia).
  assert (Hnan: (b =? Q_FLOAT_NEG_NAN) || (b =? Q_FLOAT_POS_NAN) = false).
  { unfold Q_FLOAT_NEG_NAN, Q_FLOAT_POS_NAN. unfold e in Hfin. zpows. lia. }
  assert (Hinf: (b =? Q_FLOAT_INF) = false).
  { unfold Q_FLOAT_INF. unfold e in Hfin. zpows. lia. }
  assert (Hninf: (b =? Q_FLOAT_NEG_INF) = false).
  { unfold Q_FLOAT_NEG_INF. unfold e in Hfin. zpows. lia. }
  rewrite Hnan, Hinf, Hninf.
  set (adj := 127 - bi) in *. assert (Hadj: 1 <= adj <= 238) by lia.
  rewrite (s32_small e) by (zpows; lia). rewrite (s32_small adj) by (zpows; lia).
  rewrite (s32_id (e - adj)) by (zpows; lia).
  cbn [negb andb].
  assert (Hge: forall q, 0 <= q < 2^32 -> (b2z false * QUARTER_NAN + b2z false * QUARTER_POS_INFINITY +
      b2z false * QUARTER_NEG_INFINITY + b2z true * q) mod 256 = q mod 256)
    by (intros; cbn [b2z]; f_equal; lia).
  destruct (Z.geb_spec e (adj + 15)) as [Ht|Ht].
  - (* clamp top *)
    cbn [b2z nz negb Z.eqb orb].
    replace (u32 (0 * (e - adj) + 1 * 14)) with 14 by (symmetry; apply u32_small; zpows; lia).
    replace (0 * rm + 1 * 7) with 7 by lia.
    change (14 <? 15) with true. change (14 =? 15) with false. cbn [b2z].
    change (u32 (1 * 14 + 0 * 14)) with 14. change (u32 7) with 7.
    rewrite lor_fields by lia.
    replace (s * 128 + 14 * 8 + 7) with (s * 128 + 119) by lia.
    assert (nz (s * 128 + 119) = true) as -> by (unfold nz; lia).
    cbn [negb andb b2z]. rewrite andb_false_r. cbn [negb b2z]. rewrite u32_small by (zpows; lia). lia.
  - cbn [b2z nz negb Z.eqb orb].
    destruct (Z.ltb_spec e adj) as [Hbot|Hbot].
    + cbn [b2z nz negb Z.eqb orb].
      replace (u32 (0 * (e - adj) + 0 * 14)) with 0 by reflexivity.
      change (0 <? 15) with true. change (0 =? 15) with false. cbn [b2z].
      change (u32 (1 * 0 + 0 * 14)) with 0.
      replace (u32 (0 * rm + 0 * 7)) with 0 by reflexivity.
      rewrite lor_fields by lia.
      replace (e - adj >=? -12 + bi) with (e >=? 115) by (unfold adj in *; lia).
      replace (s * 128 + 0 * 8 + 0) with (s * 128) by lia.
      destruct (Z.eqb_spec s 1) as [->|Hs1].
      * change (nz (1 * 128)) with true. cbn [negb andb]. rewrite andb_false_r. reflexivity.
      * assert (s = 0) as -> by lia. change (nz (0*128)) with false. cbn [negb andb Z.eqb].
        destruct (nz b && (e >=? 115)); reflexivity.
    + cbn [b2z nz negb Z.eqb orb].
      replace (u32 (1 * (e - adj) + 0 * 14)) with (e - adj) by (rewrite u32_small; zpows; lia).
      replace (e - adj <? 15) with true by lia. replace (e - adj =? 15) with false by lia. cbn [b2z].
      replace (u32 (1 * (e - adj) + 0 * 14)) with (e - adj) by (rewrite u32_small; zpows; lia).
      replace (u32 (1 * rm + 0 * 7)) with rm by (rewrite u32_small; zpows; lia).
      rewrite lor_fields by lia.
      replace (e - adj >=? -12 + bi) with (e >=? 115) by (unfold adj in *; lia).
      set (c := (e - adj) * 8 + rm). assert (Hc: 0 <= c < 120) by (unfold c; lia).
      replace (s * 128 + (e - adj) * 8 + rm) with (s * 128 + c) by (unfold c; lia).
      fold c.
      destruct (Z.eqb_spec s 1) as [->|Hs1].
      * assert (nz (1 * 128 + c) = true) as -> by (unfold nz; lia).
        cbn [negb andb]. rewrite andb_false_r. cbn [negb b2z]. rewrite u32_small by (zpows; lia). lia.
      * assert (s = 0) as -> by lia.
        destruct (Z.eqb_spec c 0) as [->|Hc0].
        -- change (nz (0 * 128 + 0)) with false. cbn [negb andb Z.eqb].
           destruct (nz b && (e >=? 115)); reflexivity.
        -- assert (nz (0 * 128 + c) = true) as -> by (unfold nz; lia).
           cbn [negb andb Z.eqb]. rewrite andb_false_r.
           cbn [negb b2z]. rewrite u32_small by (zpows; lia). lia.
Qed.

(** Closed form of the decoder. *)
Definition dec_form (q bias : Z) : Z :=
  let adj := 127 - effective_bias bias in
  if q =? 255 then Q_FLOAT_NEG_NAN
  else if q =? 120 then Q_FLOAT_INF
  else if q =? 248 then Q_FLOAT_NEG_INF
  else if q =? 128 then (adj - 1) * 2^23 + 2
  else if q =? 0 then 0
  else if q <? 128 then (adj * 8 + q) * 2^20
  else 2^31 + (adj * 8 + (q - 128)) * 2^20.

Lemma lor_hl a b k : 0 <= k -> 0 <= b < 2^k -> Z.lor (Z.shiftl a k) b = a * 2^k + b.
Proof.
  intros Hk Hb. rewrite <- Z.shiftl_mul_pow2 by auto.
  assert (L: Z.land (Z.shiftl a k) b = 0).
  { apply Z.bits_inj'. intros i Hi. rewrite Z.land_spec, Z.bits_0.
    destruct (Z_lt_ge_dec i k).
    - now rewrite Z.shiftl_spec_low by auto.
    - destruct (Z.eq_dec b 0) as [->|Hz]; [rewrite Z.bits_0; apply andb_false_r|].
      rewrite (Z.bits_above_log2 b i); [apply andb_false_r|lia|].
      apply Z.log2_lt_pow2; [lia|]. eapply Z.lt_le_trans; [apply Hb|].
      apply Z.pow_le_mono_r; lia. }
  rewrite Z.add_nocarry_lxor by auto. symmetry. now apply Z.lxor_lor.
Qed.

Lemma dec_fields q : 0 <= q < 256 ->
  Z.shiftr q 7 = q / 128 /\ Z.shiftr (Z.land q 0x78) 3 = (q / 8) mod 16 /\ Z.land q 7 = q mod 8.
Proof.
  intro H. split; [|split].
  - now rewrite Z.shiftr_div_pow2 by lia.
  - now apply (shr_land q 4 3).
  - now apply (Z.land_ones q 3).
Qed.

Lemma dec_closed q bias : good_bias bias -> 0 <= q < 256 -> quarterToFloat q bias = dec_form q bias.
Proof.
  intros Hb Hq. unfold quarterToFloat, dec_form.
  destruct (eff_range bias Hb) as [Hbias _].
  set (bi := effective_bias bias) in *. clearbody bi. unfold good_bias in Hbias.
  destruct (dec_fields q Hq) as (D1 & D2 & D3). rewrite D1, D2, D3.
  cbv zeta. unfold QUARTER_NAN, QUARTER_POS_INFINITY, QUARTER_NEG_INFINITY.
  rewrite (u32_small (127 - bi)) by (zpows; lia).
  set (adj := 127 - bi). assert (Hadj: 1 <= adj <= 238) by (unfold adj; lia). clearbody adj.
  destruct (Z.eqb_spec q 255) as [->|N1]; [reflexivity|].
  destruct (Z.eqb_spec q 120) as [->|N2]; [reflexivity|].
  destruct (Z.eqb_spec q 248) as [->|N3]; [reflexivity|].
  cbn [negb andb].
  assert (Hlast: forall r, 0 <= r < 2^32 -> u32 (b2z false * Q_FLOAT_NEG_NAN + b2z false * Q_FLOAT_INF +
    b2z false * Q_FLOAT_NEG_INF + b2z true * r) = r).
  { intros r Hr. cbn [b2z]. rewrite u32_small; lia. }
  destruct (Z.eqb_spec q 128) as [->|N4].
  - cbn [negb b2z]. 
    change (0 * (128 / 128)) with 0. change (0 * ((128 / 8) mod 16) + 1 * 511) with 511.
    change (0 * (128 mod 8) + 1 * 1) with 1. change (0 * 20 + 1 * 1) with 1.
    change ((511 >? 0) || (1 >? 0)) with true. change (u32 (Z.shiftl 0 31)) with 0.
    change (u32 (Z.shiftl 1 1)) with 2. cbn [b2z]. rewrite Z.lor_0_l.
    rewrite (u32_small (1 * (511 + adj))) by (zpows; lia).
    assert (E: u32 (Z.shiftl (1 * (511 + adj)) 23) = Z.shiftl (adj - 1) 23).
    { unfold u32. rewrite !Z.shiftl_mul_pow2 by lia. zpows. lia. }
    rewrite E, lor_hl by (zpows; lia). apply Hlast. zpows. lia.
  - cbn [negb b2z].
    set (r := (q / 8) mod 16). assert (Hr: 0 <= r < 16) by (unfold r; lia).
    set (m := q mod 8). assert (Hm: 0 <= m < 8) by (unfold m; lia).
    set (s := q / 128). assert (Hs: 0 <= s <= 1) by (unfold s; lia).
    assert (Eq: q = s * 128 + r * 8 + m) by (unfold s, r, m; lia).
    replace (1 * s) with s by lia. replace (1 * r + 0 * 511) with r by lia.
    replace (1 * m + 0 * 1) with m by lia. replace (1 * 20 + 0 * 1) with 20 by lia.
    clearbody s r m.
    set (e := b2z ((r >? 0) || (m >? 0)) * (r + adj)).
    assert (He: e = if (r >? 0) || (m >? 0) then r + adj else 0).
    { unfold e. destruct ((r >? 0) || (m >? 0)); cbn [b2z]; lia. }
    assert (Her: 0 <= e < 256) by (rewrite He; destruct ((r >? 0) || (m >? 0)); lia).
    clearbody e.
    rewrite (u32_small e) by (zpows; lia).
    assert (E1: u32 (Z.shiftl s 31) = Z.shiftl s 31).
    { apply u32_small. rewrite Z.shiftl_mul_pow2 by lia. zpows. lia. }
    assert (E2: u32 (Z.shiftl e 23) = Z.shiftl e 23).
    { apply u32_small. rewrite Z.shiftl_mul_pow2 by lia. zpows. lia. }
    assert (E3: u32 (Z.shiftl m 20) = m * 2^20).
    { rewrite u32_small; rewrite Z.shiftl_mul_pow2 by lia; [reflexivity|]. zpows. lia. }
    rewrite E1, E2, E3. rewrite <- Z.lor_assoc.
    rewrite (lor_hl e) by (zpows; lia). rewrite (lor_hl s) by (zpows; lia).
    rewrite Hlast by (zpows; lia).
    destruct (Z.eqb_spec q 0) as [Z0|Z0].
    + assert (s = 0 /\ r = 0 /\ m = 0) as (-> & -> & ->) by lia. cbn in He. subst e. reflexivity.
    + assert (Nz: (r >? 0) || (m >? 0) = true) by lia. rewrite Nz in He. subst e.
      destruct (Z.ltb_spec q 128); zpows; lia.
Qed.

(** codes that do not survive *)
Definition unstable_code (bias q : Z) : bool :=
  (121 <=? q) && (q <=? 127) || (249 <=? q) && (q <=? 254) || (q =? 128) && (12 <=? effective_bias bias).

Lemma enc_nan_inf bias :
  floatToQuarter Q_FLOAT_NEG_NAN bias = 255 /\ floatToQuarter Q_FLOAT_INF bias = 120 /\
  floatToQuarter Q_FLOAT_NEG_INF bias = 248.
Proof.
  unfold floatToQuarter. cbv zeta.
  repeat match goal with |- context[u32 (b2z ?c * 128 + ?y)] => generalize (u32 (b2z c * 128 + y)); intro end.
  repeat split; reflexivity.
Qed.

(** encoder on an assembled positive / negative pattern *)
Lemma enc_assembled s n bias : good_bias bias -> 0 <= s <= 1 -> 8 <= n < 2040 ->
  let adj := 127 - effective_bias bias in
  floatToQuarter (s * 2^31 + n * 2^20) bias =
    if n >=? adj * 8 + 120 then s * 128 + 119
    else if n <? adj * 8 then (if s =? 1 then 128 else if n / 8 >=? 115 then 128 else 0)
    else if s =? 1 then 128 + (n - adj * 8)
    else if n - adj * 8 =? 0 then (if n / 8 >=? 115 then 128 else 0) else n - adj * 8.
Proof.
  intros Hb Hs Hn adj.
  assert (F1: (s * 2^31 + n * 2^20) / 2^31 = s) by (zpows; lia).
  assert (F2: (s * 2^31 + n * 2^20) / 2^23 mod 256 = n / 8) by (zpows; lia).
  assert (F3: (s * 2^31 + n * 2^20) / 2^20 mod 8 = n mod 8) by (zpows; lia).
  assert (F4: (s * 2^31 + n * 2^20) / 2^19 mod 2 = 0) by (zpows; lia).
  assert (F5: nz (s * 2^31 + n * 2^20) = true) by (unfold nz; zpows; lia).
  rewrite enc_closed; auto; [|zpows; lia|rewrite F2; lia].
  unfold enc_form. rewrite F1, F2, F3, F4, F5. cbv zeta. fold adj. clearbody adj.
  change (0 >? 0) with false. rewrite andb_false_r. cbn [b2z andb]. clear F1 F2 F3 F4 F5.
  destruct (Z.geb_spec (n / 8) (adj + 15)), (Z.geb_spec n (adj * 8 + 120)); try lia.
  destruct (Z.ltb_spec (n / 8) adj), (Z.ltb_spec n (adj * 8)); try lia.
  - cbn [Z.eqb]. destruct (s =? 1); reflexivity.
  - replace ((n / 8 - adj) * 8 + (n mod 8 + 0)) with (n - adj * 8) by lia. reflexivity.
Qed.

Lemma enc_tiny bias : good_bias bias ->
  let adj := 127 - effective_bias bias in
  floatToQuarter ((adj - 1) * 2^23 + 2) bias = if adj - 1 >=? 115 then 128 else 0.
Proof.
  intros Hb adj. destruct (eff_range bias Hb) as [Hbias _]. unfold good_bias in Hbias.
  assert (Ha: 1 <= adj <= 238) by (unfold adj; lia).
  assert (F1: ((adj - 1) * 2^23 + 2) / 2^31 = 0) by (zpows; lia).
  assert (F2: ((adj - 1) * 2^23 + 2) / 2^23 mod 256 = adj - 1) by (zpows; lia).
  assert (F5: nz ((adj - 1) * 2^23 + 2) = true) by (unfold nz; zpows; lia).
  rewrite enc_closed; auto; [|zpows; lia|rewrite F2; lia].
  unfold enc_form. rewrite F1, F2, F5. cbv zeta. fold adj. clearbody adj.
  replace (adj - 1 >=? adj + 15) with false by lia. replace (adj - 1 <? adj) with true by lia.
  reflexivity.
Qed.

Lemma codes_stable bias q : good_bias bias -> 0 <= q < 256 ->
  floatToQuarter (quarterToFloat q bias) bias = q <-> unstable_code bias q = false.
Proof.
  intros Hb Hq. rewrite dec_closed by auto. unfold dec_form, unstable_code.
  destruct (enc_nan_inf bias) as (I1 & I2 & I3).
  destruct (Z.eqb_spec q 255) as [->|N1]; [rewrite I1; cbn [Z.leb Z.eqb andb orb]; tauto|].
  destruct (Z.eqb_spec q 120) as [->|N2]; [rewrite I2; tauto|].
  destruct (Z.eqb_spec q 248) as [->|N3]; [rewrite I3; tauto|].
  destruct (eff_range bias Hb) as [Hbias _]. unfold good_bias in Hbias.
  destruct (Z.eqb_spec q 128) as [->|N4].
  - rewrite enc_tiny by auto. cbv zeta. set (bi := effective_bias bias) in *. clearbody bi.
    destruct (Z.geb_spec (127 - bi - 1) 115); lia.
  - destruct (Z.eqb_spec q 0) as [->|N5].
    + rewrite enc_closed; auto; [|zpows; lia]. unfold enc_form. cbv zeta.
      change (0 / 2^31) with 0. change (0 / 2^23 mod 256) with 0. change (nz 0) with false.
      change (0 / 2^20 mod 8) with 0. change (0 / 2^19 mod 2) with 0.
      set (bi := effective_bias bias) in *. clearbody bi.
      replace (0 >=? 127 - bi + 15) with false by lia. replace (0 <? 127 - bi) with true by lia.
      cbn. tauto.
    + destruct (Z.ltb_spec q 128).
      * rewrite <- (Z.add_0_l (_ * 2^20)). change 0 with (0 * 2^31) at 1.
        rewrite enc_assembled by (auto; lia). cbv zeta.
        set (bi := effective_bias bias) in *. clearbody bi.
        destruct (Z.geb_spec ((127 - bi) * 8 + q) ((127 - bi) * 8 + 120)); [lia|].
        destruct (Z.ltb_spec ((127 - bi) * 8 + q) ((127 - bi) * 8)); [lia|].
        change (0 =? 1) with false. cbv iota.
        destruct (Z.eqb_spec ((127 - bi) * 8 + q - (127 - bi) * 8) 0); lia.
      * rewrite <- (Z.mul_1_l (2^31)).
        rewrite enc_assembled by (auto; lia). cbv zeta.
        set (bi := effective_bias bias) in *. clearbody bi.
        destruct (Z.geb_spec ((127 - bi) * 8 + (q - 128)) ((127 - bi) * 8 + 120)); [lia|].
        destruct (Z.ltb_spec ((127 - bi) * 8 + (q - 128)) ((127 - bi) * 8)); [lia|].
        change (1 =? 1) with true. cbv iota. lia.
Qed.
