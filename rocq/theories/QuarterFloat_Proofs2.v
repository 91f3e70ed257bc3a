From Coq Require Import NArith ZArith List Lia ZifyN ZifyNat ZifyBool Bool.
From Verif Require Import Float32_Spec HalfFloat_Proofs QuarterFloat_Model QuarterFloat_Proofs.
Import ListNotations.
Open Scope Z_scope.
Ltac Zify.zify_post_hook ::= Z.div_mod_to_equations.

Lemma fin_Z b : f32_finite b -> (Z.of_N b / 2^23) mod 256 < 255.
Proof.
  unfold f32_finite, f32_exp. change (2^23)%N with 8388608%N. zpows. lia.
Qed.

Lemma enc_range b bias : good_bias bias -> 0 <= b < 2^32 -> 0 <= floatToQuarter b bias < 256.
Proof. intros. unfold floatToQuarter. cbv zeta. apply Z.mod_pos_bound. lia. Qed.

Lemma store_eq b bias : good_bias bias -> (b < 2^32)%N -> f32_finite b ->
  quarter_store b bias = Z.to_N (dec_form (enc_form (Z.of_N b) bias) bias).
Proof.
  intros Hb Hlt Hf. unfold quarter_store.
  assert (0 <= Z.of_N b < 2^32) by (change (2^32)%N with 4294967296%N in *; zpows; lia).
  rewrite dec_closed; auto. 2: now apply enc_range.
  rewrite enc_closed; auto. now apply fin_Z.
Qed.

Lemma dec_pos c bias : 0 < c < 120 -> dec_form c bias = ((127 - effective_bias bias) * 8 + c) * 2^20.
Proof.
  intro H. unfold dec_form.
  replace (c =? 0) with false by lia.
  replace (c =? 255) with false by lia. replace (c =? 120) with false by lia.
  replace (c =? 248) with false by lia. replace (c =? 128) with false by lia.
  replace (c <? 128) with true by lia. reflexivity.
Qed.
Lemma dec_neg c bias : 0 < c < 120 ->
  dec_form (128 + c) bias = 2^31 + ((127 - effective_bias bias) * 8 + c) * 2^20.
Proof.
  intro H. unfold dec_form.
  replace (128 + c =? 255) with false by lia. replace (128 + c =? 120) with false by lia.
  replace (128 + c =? 248) with false by lia. replace (128 + c =? 128) with false by lia.
  replace (128 + c =? 0) with false by lia. replace (128 + c <? 128) with false by lia.
  now replace (128 + c - 128) with c by lia.
Qed.
Lemma dec_tiny bias : dec_form 128 bias = (127 - effective_bias bias - 1) * 2^23 + 2.
Proof. reflexivity. Qed.
Lemma dec_zero bias : dec_form 0 bias = 0.
Proof. reflexivity. Qed.

(** The stored pattern of a finite float, in cases. *)
Lemma store_cases b bias : good_bias bias -> (b < 2^32)%N -> f32_finite b ->
  let adj := Z.to_N (127 - effective_bias bias) in
  let e := f32_exp b in
  let s := (if f32_sign b then 2^31 else 0)%N in
  let k := (b / 2^20 mod 2^11)%N in
  let r := (k mod 8)%N in
  let u := (if (r <? 7) && (b / 2^19 mod 2 =? 1) then 1 else 0)%N in
  (* saturate *)
  ((adj + 15 <= e /\ quarter_store b bias = s + (adj * 8 + 119) * 2^20) \/
  (* in range *)
  (adj <= e < adj + 15 /\ adj * 8 < k + u /\ quarter_store b bias = s + (k + u) * 2^20) \/
  (* underflow *)
  (e < adj + 15 /\ (e < adj \/ k + u = adj * 8) /\
   quarter_store b bias = if f32_sign b || ((0 <? b) && (115 <=? e)) then (adj - 1) * 2^23 + 2 else 0))%N.
Proof.
  intros Hb Hlt Hf. cbv zeta. rewrite store_eq by auto.
  destruct (eff_range bias Hb) as [Hbias _].
  unfold enc_form. unfold good_bias in Hbias.
  set (adj := Z.to_N (127 - effective_bias bias)). assert (Hadj: (1 <= adj <= 238)%N) by lia.
  assert (Ebi: 127 - effective_bias bias = Z.of_N adj) by lia. rewrite Ebi. clearbody adj.
  unfold f32_finite, f32_sign in *.
  set (B := Z.of_N b).
  assert (Enz: nz B = (0 <? b)%N) by (unfold nz, B; lia).
  assert (Ek: (b / 2^20 mod 2^11)%N = (f32_exp b * 8 + (b / 2^20) mod 8)%N).
  { unfold f32_exp. change (2^11)%N with 2048%N; change (2^20)%N with 1048576%N; change (2^23)%N with 8388608%N. lia. }
  rewrite Ek.
  set (e := f32_exp b) in *.
  assert (Ee: (B / 2^23) mod 256 = Z.of_N e).
  { unfold B, e, f32_exp. change (2^23)%N with 8388608%N. zpows. lia. }
  set (r := ((b / 2^20) mod 8)%N) in *.
  assert (Er: (B / 2^20) mod 8 = Z.of_N r).
  { unfold B, r. change (2^20)%N with 1048576%N. zpows. lia. }
  assert (Hr: (r < 8)%N) by (unfold r; lia).
  replace ((e * 8 + r) mod 8)%N with r by lia.
  set (x := (b / 2^19 mod 2)%N) in *.
  assert (Ex: (B / 2^19) mod 2 = Z.of_N x).
  { unfold B, x. change (2^19)%N with 524288%N. zpows. lia. }
  assert (Hx: (x < 2)%N) by (unfold x; lia).
  assert (Es: B / 2^31 = if (2^31 <=? b)%N then 1 else 0).
  { unfold B. change (2^32)%N with 4294967296%N in *. change (2^31)%N with 2147483648%N. zpows.
    destruct (N.leb_spec 2147483648 b); lia. }
  rewrite Ee, Er, Ex, Es.
  set (u := (if (r <? 7) && (x =? 1) then 1 else 0)%N).
  assert (Eu: b2z ((Z.of_N r <? 7) && (Z.of_N x >? 0)) = Z.of_N u).
  { unfold u. replace (Z.of_N r <? 7) with (r <? 7)%N by lia. replace (Z.of_N x >? 0) with (x =? 1)%N by lia.
    destruct ((r <? 7)%N && (x =? 1)%N); reflexivity. }
  rewrite Eu. cbv zeta.
  assert (Hu: (u = 0 \/ u = 1 /\ r < 7)%N).
  { unfold u. destruct (N.ltb_spec r 7), (x =? 1)%N; cbn [andb]; lia. }
  clearbody u x r e. clear Ek Er Ex Ee Eu Es.
  assert (T: Z.to_N ((Z.of_N adj - 1) * 2^23 + 2) = ((adj - 1) * 2^23 + 2)%N).
  { change (2^23)%N with 8388608%N; zpows. lia. }
  destruct (Z.geb_spec (Z.of_N e) (Z.of_N adj + 15)).
  { left. split; [lia|].
    destruct (N.leb_spec (2^31) b).
    - change (1 * 128 + 119) with (128 + 119). rewrite dec_neg, Ebi by lia.
      change (2^31)%N with 2147483648%N; change (2^20)%N with 1048576%N; zpows. lia.
    - change (0 * 128 + 119) with 119. rewrite dec_pos, Ebi by lia.
      change (2^20)%N with 1048576%N; zpows. lia. }
  right.
  destruct (Z.ltb_spec (Z.of_N e) (Z.of_N adj)).
  - right. split; [lia|]. split; [lia|].
    destruct (N.leb_spec (2^31) b).
    + change (if 1 =? 1 then 128 + 0 else _) with 128. rewrite dec_tiny, Ebi. exact T.
    + change (if 0 =? 1 then _ else ?x) with x. change (if 0 =? 0 then ?x else _) with x.
      rewrite Enz. replace (Z.of_N e >=? 115) with (115 <=? e)%N by lia. cbn [orb].
      destruct ((0 <? b)%N && (115 <=? e)%N).
      * rewrite dec_tiny, Ebi. exact T.
      * now rewrite dec_zero.
  - set (c := (Z.of_N e - Z.of_N adj) * 8 + (Z.of_N r + Z.of_N u)).
    assert (Hc: 0 <= c < 120) by (unfold c; lia).
    destruct (Z.eq_dec c 0) as [Hc0|Hc0].
    + right. split; [lia|]. split; [right; unfold c in *; lia|]. rewrite Hc0.
      destruct (N.leb_spec (2^31) b).
      * change (if 1 =? 1 then 128 + 0 else _) with 128. rewrite dec_tiny, Ebi. exact T.
      * change (if 0 =? 1 then _ else ?x) with x. change (if 0 =? 0 then ?x else _) with x.
        rewrite Enz. replace (Z.of_N e >=? 115) with (115 <=? e)%N by lia. cbn [orb].
        destruct ((0 <? b)%N && (115 <=? e)%N).
        -- rewrite dec_tiny, Ebi. exact T.
        -- now rewrite dec_zero.
    + left. split; [lia|]. split; [unfold c in *; lia|].
      destruct (N.leb_spec (2^31) b).
      * change (if 1 =? 1 then ?x else _) with x. rewrite dec_neg, Ebi by lia.
        change (2^31)%N with 2147483648%N; change (2^20)%N with 1048576%N; zpows. unfold c in *; lia.
      * change (if 0 =? 1 then _ else ?x) with x.
        replace (c =? 0) with false by lia. rewrite dec_pos, Ebi by lia.
        change (2^20)%N with 1048576%N; zpows. unfold c in *; lia.
Qed.

Open Scope N_scope.
Ltac npows := change (2^32) with 4294967296 in *; change (2^31) with 2147483648 in *;
  change (2^23) with 8388608 in *; change (2^20) with 1048576 in *; change (2^19) with 524288 in *;
  change (2^11) with 2048 in *.

Lemma sign_iff b : f32_sign b = true <-> 2^31 <= b.
Proof. unfold f32_sign. apply N.leb_le. Qed.

Lemma exp_lt_256 b : f32_exp b < 256.
Proof. unfold f32_exp. lia. Qed.

(* exponent/mantissa fields of an assembled pattern *)
Lemma exp_assembled s n : s = 0 \/ s = 2^31 -> n < 2048 -> f32_exp (s + n * 2^20) = n / 8.
Proof. unfold f32_exp. npows. intros [->| ->] H; lia. Qed.
Lemma man_assembled s n : s = 0 \/ s = 2^31 -> n < 2048 -> f32_man (s + n * 2^20) = n mod 8 * 2^20.
Proof. unfold f32_man. npows. intros [->| ->] H; lia. Qed.
Lemma sign_assembled (c : bool) n : n < 2048 -> f32_sign ((if c then 2^31 else 0) + n * 2^20) = c.
Proof.
  intro H. unfold f32_sign. destruct c; [apply N.leb_le|apply N.leb_gt]; npows; lia.
Qed.

Lemma mag_bits b : f32_exp b <> 0 -> f32_mag b = (2^23 + f32_man b) * 2^(f32_exp b - 1).
Proof. intro H. unfold f32_mag. now destruct (N.eqb_spec (f32_exp b) 0). Qed.

Lemma adj_bound bias : good_bias bias ->
  let adj := Z.to_N (127 - effective_bias bias) in 1 <= adj <= 238.
Proof. intros H adj. destruct (eff_range bias H) as [E _]. unfold good_bias in E. lia. Qed.

Lemma kfield b : (b / 2^20 mod 2^11) / 8 = f32_exp b /\ (b / 2^20 mod 2^11) mod 8 = (b / 2^20) mod 8.
Proof. unfold f32_exp. npows. lia. Qed.

(** thresholds as magnitudes *)
Lemma mag_exp_bounds b : f32_exp b <> 0 ->
  2^23 * 2^(f32_exp b - 1) <= f32_mag b < 2^24 * 2^(f32_exp b - 1).
Proof.
  intro H. rewrite mag_bits by auto.
  assert (f32_man b < 2^23) by (apply N.mod_upper_bound; discriminate).
  assert (0 < 2^(f32_exp b - 1)) by (apply N.neq_0_lt_0, N.pow_nonzero; lia).
  change (2^24) with (2 * 2^23). split; [nia|]. apply N.mul_lt_mono_pos_r; lia.
Qed.
Lemma mag_exp0 b : f32_exp b = 0 -> f32_mag b < 2^23.
Proof. intro H. unfold f32_mag. rewrite H. apply N.mod_upper_bound. discriminate. Qed.

Lemma exp_of_mag_ge b n : 1 <= n -> 2^23 * 2^(n-1) <= f32_mag b -> n <= f32_exp b.
Proof.
  intros Hn H. destruct (N.le_gt_cases n (f32_exp b)) as [|C]; auto. exfalso.
  destruct (N.eq_dec (f32_exp b) 0) as [E|E].
  - pose proof (mag_exp0 b E).
    assert (1 <= 2^(n-1)) by (apply N.lt_pred_le, N.neq_0_lt_0, N.pow_nonzero; lia). nia.
  - pose proof (mag_exp_bounds b E) as [_ B].
    assert (2 * 2^(f32_exp b - 1) <= 2^(n-1)).
    { rewrite <- N.pow_succ_r'. apply N.pow_le_mono_r; lia. }
    change (2^24) with (2^23 * 2) in B. nia.
Qed.
Lemma exp_of_mag_lt b n : 1 <= n -> f32_mag b < 2^23 * 2^(n-1) -> f32_exp b < n.
Proof.
  intros Hn H. destruct (N.lt_ge_cases (f32_exp b) n) as [|C]; auto. exfalso.
  assert (E: f32_exp b <> 0) by lia.
  pose proof (mag_exp_bounds b E) as [B _].
  assert (2^(n-1) <= 2^(f32_exp b-1)) by (apply N.pow_le_mono_r; lia).
  nia.
Qed.

(** saturation *)
Lemma store_saturates b bias : good_bias bias -> b < 2^32 -> f32_finite b ->
  2^23 * 2^(Z.to_N (127 - effective_bias bias) + 14) <= f32_mag b ->
  f32_sign (quarter_store b bias) = f32_sign b /\
  f32_mag (quarter_store b bias) = 15 * 2^20 * 2^(Z.to_N (127 - effective_bias bias) + 13).
Proof.
  intros Hb Hlt Hf Hm. pose proof (adj_bound bias Hb) as Ha. cbv zeta in Ha.
  set (adj := Z.to_N (127 - effective_bias bias)) in *.
  replace (adj + 14) with (adj + 15 - 1) in Hm by lia. apply exp_of_mag_ge in Hm; [|lia].
  pose proof (store_cases b bias Hb Hlt Hf) as SC. cbv zeta in SC. fold adj in SC.
  destruct SC as [[H E]|[[H _]|[H _]]]; try lia.
  rewrite E. split.
  - apply sign_assembled. lia.
  - assert (f32_exp ((if f32_sign b then 2^31 else 0) + (adj * 8 + 119) * 2^20) = adj + 14).
    { rewrite exp_assembled; [lia| destruct (f32_sign b); auto|lia]. }
    rewrite mag_bits by lia. rewrite H0.
    rewrite man_assembled; [| destruct (f32_sign b); auto|lia].
    replace ((adj * 8 + 119) mod 8) with 7 by lia.
    replace (adj + 14 - 1) with (adj + 13) by lia. reflexivity.
Qed.

(** sign and error inside the range *)
Lemma store_in_range b bias : good_bias bias -> b < 2^32 -> f32_finite b ->
  17 * 2^19 * 2^(Z.to_N (127 - effective_bias bias) - 1) <= f32_mag b ->
  f32_mag b < 2^23 * 2^(Z.to_N (127 - effective_bias bias) + 14) ->
  f32_sign (quarter_store b bias) = f32_sign b /\
  f32_finite (quarter_store b bias) /\
  (Z.abs (Z.of_N (f32_mag (quarter_store b bias)) - Z.of_N (f32_mag b)) * 16 <= Z.of_N (f32_mag b))%Z.
Proof.
  intros Hb Hlt Hf Hlo Hhi. pose proof (adj_bound bias Hb) as Ha. cbv zeta in Ha.
  set (adj := Z.to_N (127 - effective_bias bias)) in *.
  replace (adj + 14) with (adj + 15 - 1) in Hhi by lia. apply exp_of_mag_lt in Hhi; [|lia].
  assert (Hge: adj <= f32_exp b).
  { apply exp_of_mag_ge; [lia|]. change (2^23) with (16 * 2^19). nia. }
  pose proof (store_cases b bias Hb Hlt Hf) as SC. cbv zeta in SC. fold adj in SC.
  destruct SC as [[H E]|[[H [Hk E]]|[H [Hk E]]]]; try lia.
  - clear Hlo. rewrite E.
    destruct (kfield b) as [K1 K2].
    set (k := b / 2^20 mod 2^11) in *. assert (Hk2: k < 2048) by (unfold k; npows; lia).
    set (u := if (k mod 8 <? 7) && (b / 2^19 mod 2 =? 1) then 1 else 0) in *.
    assert (Hu: (u = 0 /\ (k mod 8 = 7 \/ b / 2^19 mod 2 = 0)) \/ (u = 1 /\ k mod 8 < 7 /\ b / 2^19 mod 2 = 1)).
    { unfold u. destruct (N.ltb_spec (k mod 8) 7), (N.eqb_spec (b / 2^19 mod 2) 1); cbn [andb]; lia. }
    assert (Hku: (k + u) / 8 = f32_exp b) by lia.
    assert (Hlt2: k + u < 2048) by lia.
    split; [now apply sign_assembled|].
    assert (Ex: f32_exp ((if f32_sign b then 2^31 else 0) + (k + u) * 2^20) = f32_exp b).
    { rewrite exp_assembled; [exact Hku|destruct (f32_sign b); auto|exact Hlt2]. }
    split. { unfold f32_finite in *. now rewrite Ex. }
    rewrite !mag_bits by lia. rewrite Ex.
    rewrite man_assembled; [|destruct (f32_sign b); auto|exact Hlt2].
    assert (Em: f32_man b = (b / 2^20) mod 8 * 2^20 + (b / 2^19) mod 2 * 2^19 + b mod 2^19).
    { unfold f32_man. npows. clear. lia. }
    assert (Hl: b mod 2^19 < 2^19) by (apply N.mod_upper_bound; discriminate).
    rewrite <- K2 in Em. 
    assert (Hd: (Z.abs (Z.of_N ((k + u) mod 8 * 2^20) - Z.of_N (f32_man b)) * 16 <= 2^23 + Z.of_N (f32_man b))%Z).
    { set (l := b mod 2^19) in *. clearbody l.
      set (x := b / 2^19 mod 2) in *. assert (x < 2) by (unfold x; clear; lia). clearbody x.
      change (2^23)%Z with 8388608%Z. npows. clear - Em Hl Hu H0. clearbody k u.
      destruct Hu as [[-> [Hu|Hu]]|[-> [Hu ->]]]; lia. }
    set (p := 2^(f32_exp b - 1)). clearbody p.
    set (m' := (k + u) mod 8 * 2^20) in *. clearbody m'. set (m := f32_man b) in *. clearbody m.
    rewrite !N2Z.inj_mul, !N2Z.inj_add. change (Z.of_N (2^23)) with (2^23)%Z.
    replace ((2 ^ 23 + Z.of_N m') * Z.of_N p - (2 ^ 23 + Z.of_N m) * Z.of_N p)%Z
      with ((Z.of_N m' - Z.of_N m) * Z.of_N p)%Z by ring.
    rewrite Z.abs_mul, (Z.abs_eq (Z.of_N p)) by apply N2Z.is_nonneg.
    rewrite <- Z.mul_assoc, (Z.mul_comm (Z.of_N p)), Z.mul_assoc.
    apply Z.mul_le_mono_nonneg_r; [apply N2Z.is_nonneg|exact Hd].
  - exfalso. destruct Hk as [Hk|Hk]; [lia|].
    destruct (kfield b) as [K1 K2].
    set (k := b / 2^20 mod 2^11) in *. assert (Hk2: k < 2048) by (unfold k; npows; lia).
    set (u := if (k mod 8 <? 7) && (b / 2^19 mod 2 =? 1) then 1 else 0) in *.
    assert (Hu: (u = 0 /\ (k mod 8 = 7 \/ b / 2^19 mod 2 = 0)) \/ (u = 1 /\ k mod 8 < 7 /\ b / 2^19 mod 2 = 1)).
    { unfold u. destruct (N.ltb_spec (k mod 8) 7), (N.eqb_spec (b / 2^19 mod 2) 1); cbn [andb]; lia. }
    assert (u = 0 /\ k = adj * 8 /\ f32_exp b = adj) as (U0 & U1 & U2) by (clear E; lia).
    rewrite mag_bits in Hlo by lia.
    assert (Em: f32_man b = (b / 2^20) mod 8 * 2^20 + (b / 2^19) mod 2 * 2^19 + b mod 2^19).
    { unfold f32_man. npows. clear. lia. }
    assert (Hl: b mod 2^19 < 2^19) by (apply N.mod_upper_bound; discriminate).
    assert (k mod 8 = 0) by (rewrite U1; clear; lia).
    assert (b / 2^19 mod 2 = 0).
    { destruct Hu as [[_ [C|C]]|[C _]]; [congruence|exact C|congruence]. }
    assert (f32_man b < 2^19) by (rewrite Em, <- K2, H0, H1; exact Hl).
    rewrite U2 in Hlo.
    assert (0 < 2^(adj - 1)) by (apply N.neq_0_lt_0, N.pow_nonzero; lia).
    apply N.mul_le_mono_pos_r in Hlo; [|assumption]. clear - Hlo H2. npows; lia.
Qed.
