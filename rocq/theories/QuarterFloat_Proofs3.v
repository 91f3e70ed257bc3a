From Coq Require Import NArith ZArith List Lia ZifyN ZifyNat ZifyBool Bool.
From Verif Require Import Float32_Spec HalfFloat_Proofs QuarterFloat_Model QuarterFloat_Proofs QuarterFloat_Proofs2.
Import ListNotations.
Open Scope N_scope.
Ltac Zify.zify_post_hook ::= Z.div_mod_to_equations.

Lemma sign_pos b : b < 2^31 -> f32_sign b = false.
Proof. intro. unfold f32_sign. now apply N.leb_gt. Qed.

(** abbreviations for the in-range code position *)
Definition kk (b : N) : N := b / 2^20 mod 2^11.
Definition uu (b : N) : N := if (kk b mod 8 <? 7) && (b / 2^19 mod 2 =? 1) then 1 else 0.

Lemma uu_cases b : (uu b = 0) \/ (uu b = 1 /\ kk b mod 8 < 7 /\ b / 2^19 mod 2 = 1).
Proof.
  unfold uu. destruct (N.ltb_spec (kk b mod 8) 7), (N.eqb_spec (b / 2^19 mod 2) 1); cbn [andb]; auto.
Qed.

Lemma ku_mono b b' : b <= b' -> b' < 2^31 -> kk b + uu b <= kk b' + uu b'.
Proof.
  intros H H'.
  assert (K: kk b = b / 2^20) by (unfold kk; npows; lia).
  assert (K': kk b' = b' / 2^20) by (unfold kk; npows; lia).
  assert (Kle: kk b <= kk b') by (rewrite K, K'; apply N.div_le_mono; [discriminate|auto]).
  destruct (N.eq_dec (kk b) (kk b')) as [E|E].
  - rewrite E. apply N.add_le_mono_l. unfold uu. rewrite E.
    destruct (kk b' mod 8 <? 7); cbn [andb]; [|lia].
    assert (X: b / 2^19 mod 2 <= b' / 2^19 mod 2).
    { rewrite K, K' in E. clear - H E. npows. lia. }
    destruct (N.eqb_spec (b / 2^19 mod 2) 1), (N.eqb_spec (b' / 2^19 mod 2) 1); try lia;
    pose proof (N.mod_upper_bound (b' / 2^19) 2); lia.
  - destruct (uu_cases b) as [->|[-> _]]; lia.
Qed.

Lemma exp_mono b b' : b <= b' -> b' < 2^31 -> f32_exp b <= f32_exp b'.
Proof. unfold f32_exp. npows. intros. lia. Qed.

Lemma exp_kk b : f32_exp b = kk b / 8.
Proof. unfold f32_exp, kk. npows. lia. Qed.

Lemma ku_exp b : (kk b + uu b) / 8 = f32_exp b.
Proof. rewrite exp_kk. destruct (uu_cases b) as [->|[-> [H _]]]; lia. Qed.

Lemma store_pos_cases b bias : good_bias bias -> b < 2^31 -> f32_finite b ->
  let adj := Z.to_N (127 - effective_bias bias) in
  (adj + 15 <= f32_exp b /\ quarter_store b bias = (adj * 8 + 119) * 2^20) \/
  (f32_exp b < adj + 15 /\ adj * 8 < kk b + uu b /\ quarter_store b bias = (kk b + uu b) * 2^20) \/
  (f32_exp b < adj + 15 /\ kk b + uu b <= adj * 8 /\
   quarter_store b bias = if (0 <? b) && (115 <=? f32_exp b) then (adj - 1) * 2^23 + 2 else 0).
Proof.
  intros Hb Hlt Hf. pose proof (store_cases b bias Hb) as SC. cbv zeta in *.
  set (adj := Z.to_N (127 - effective_bias bias)) in *. clearbody adj.
  rewrite (sign_pos b Hlt) in SC.
  assert (L: b < 2^32) by (npows; lia). specialize (SC L Hf).
  fold (kk b) in SC. fold (uu b) in SC.
  rewrite !N.add_0_l in SC. cbn [orb] in SC.
  destruct SC as [[A B]|[[A [B C]]|[A [B C]]]].
  - left. auto.
  - right; left. split; [lia|auto].
  - right; right. split; [auto|]. split; [|auto].
    destruct B as [B|B]; [|lia]. pose proof (ku_exp b). clear - B H. lia.
Qed.

Lemma store_pos_mono b b' bias : good_bias bias -> b <= b' -> b' < 2^31 -> f32_finite b -> f32_finite b' ->
  quarter_store b bias <= quarter_store b' bias /\ quarter_store b' bias < 2^31.
Proof.
  intros Hb Hle Hlt F F'.
  assert (Hlt0: b < 2^31) by lia.
  pose proof (adj_bound bias Hb) as Ha.
  pose proof (store_pos_cases b bias Hb Hlt0 F) as C.
  pose proof (store_pos_cases b' bias Hb Hlt F') as C'.
  cbv zeta in *. set (adj := Z.to_N (127 - effective_bias bias)) in *. clearbody adj.
  pose proof (ku_mono b b' Hle Hlt) as KU. pose proof (exp_mono b b' Hle Hlt) as EX.
  pose proof (ku_exp b) as E. pose proof (ku_exp b') as E'.
  set (n := kk b + uu b) in *. set (n' := kk b' + uu b') in *. clearbody n n'.
  set (e := f32_exp b) in *. set (e' := f32_exp b') in *.
  assert (e' < 255) by exact F'. clearbody e e'.
  npows.
  destruct C as [[A B]|[[A [B C]]|[A [B C]]]], C' as [[A' B']|[[A' [B' C']]|[A' [B' C']]]];
   try (rewrite C in *); try (rewrite C' in *); try (rewrite B in *); try (rewrite B' in *);
   try (destruct (N.ltb_spec 0 b)); try (destruct (N.ltb_spec 0 b')); cbn [andb];
   try (destruct (N.leb_spec 115 e)); try (destruct (N.leb_spec 115 e')); cbn [andb]; lia.
Qed.

Lemma store_nonneg b bias : good_bias bias -> b < 2^31 -> f32_finite b ->
  f32_sign (quarter_store b bias) = false.
Proof.
  intros Hb H F. apply sign_pos. eapply store_pos_mono; eauto. lia.
Qed.

Lemma store_monotone b b' bias : good_bias bias -> b < 2^31 -> b' < 2^31 -> f32_finite b -> f32_finite b' ->
  (f32_units b <= f32_units b')%Z ->
  (f32_units (quarter_store b bias) <= f32_units (quarter_store b' bias))%Z.
Proof.
  intros Hb H H' F F' U. rewrite !units_pos in U by auto.
  assert (b <= b').
  { destruct (mag_le_inv b b'); lia. }
  destruct (store_pos_mono b b' bias) as [S1 S2]; auto.
  rewrite !units_pos by lia. pose proof (mag_mono _ _ S1 S2). lia.
Qed.

(** never larger than the largest code *)
Lemma store_bounded b bias : good_bias bias -> b < 2^32 -> f32_finite b ->
  f32_finite (quarter_store b bias) /\
  f32_mag (quarter_store b bias) <= 15 * 2^20 * 2^(Z.to_N (127 - effective_bias bias) + 13).
Proof.
  intros Hb H F.
  pose proof (adj_bound bias Hb) as Ha.
  pose proof (store_cases b bias Hb H F) as C. cbv zeta in *.
  set (adj := Z.to_N (127 - effective_bias bias)) in *. clearbody adj.
  fold (kk b) in C. fold (uu b) in C. pose proof (ku_exp b) as E.
  set (n := kk b + uu b) in *. clearbody n.
  set (top := (adj * 8 + 119) * 2^20).
  assert (Et: f32_exp top = adj + 14).
  { unfold top. rewrite <- (N.add_0_l ((adj*8+119)*2^20)). rewrite exp_assembled; auto; lia. }
  assert (Mt: f32_mag top = 15 * 2^20 * 2^(adj+13)).
  { rewrite mag_bits by lia. rewrite Et. unfold top.
    rewrite <- (N.add_0_l ((adj*8+119)*2^20)). rewrite man_assembled; auto; [|lia].
    replace ((adj*8+119) mod 8) with 7 by lia. replace (adj + 14 - 1) with (adj + 13) by lia. reflexivity. }
  assert (Ht31: top < 2^31) by (unfold top; npows; lia).
  assert (G: forall w, w < 2^32 -> w mod 2^31 <= top -> f32_finite w /\ f32_mag w <= 15 * 2^20 * 2^(adj+13)).
  { intros w Hw1 Hw. split.
    - unfold f32_finite. replace (f32_exp w) with (f32_exp (low31 w)) by apply exp_low.
      pose proof (exp_mono _ _ Hw Ht31) as X. unfold low31. rewrite Et in X. lia.
    - rewrite mag_low. rewrite <- Mt. apply mag_mono; auto. }
  assert (f32_exp b < 255) by exact F.
  destruct C as [[A B]|[[A [B C]]|[A [B C]]]].
  - rewrite B. apply G.
    + destruct (f32_sign b); npows; lia.
    + unfold top. destruct (f32_sign b); npows; lia.
  - rewrite C. apply G.
    + destruct (f32_sign b); npows; lia.
    + unfold top. destruct (f32_sign b); npows; lia.
  - rewrite C. apply G.
    + destruct (_ || _); npows; lia.
    + unfold top. destruct (_ || _); npows; lia.
Qed.

(** every negative float that underflows is read back as a positive number *)
Lemma store_negative_underflow b bias : good_bias bias -> 2^31 <= b < 2^32 -> f32_finite b ->
  f32_mag b < 17 * 2^19 * 2^(Z.to_N (127 - effective_bias bias) - 1) ->
  f32_sign (quarter_store b bias) = false /\ f32_mag (quarter_store b bias) <> 0.
Proof.
  intros Hb H F M.
  pose proof (adj_bound bias Hb) as Ha.
  pose proof (store_cases b bias Hb) as C. cbv zeta in *.
  set (adj := Z.to_N (127 - effective_bias bias)) in *. clearbody adj.
  assert (L: b < 2^32) by lia. specialize (C L F).
  assert (S: f32_sign b = true) by (apply sign_iff; lia). rewrite S in C.
  fold (kk b) in C. fold (uu b) in C.
  assert (Hexp: f32_exp b <= adj).
  { assert (f32_exp b < adj + 1); [|lia]. apply exp_of_mag_lt; [lia|].
    replace (adj + 1 - 1) with (N.succ (adj - 1)) by lia. rewrite N.pow_succ_r'.
    eapply N.lt_le_trans; [exact M|].
    rewrite N.mul_assoc. apply N.mul_le_mono_r. npows; lia. }
  destruct C as [[A B]|[[A [B C]]|[A [B C]]]].
  - lia.
  - exfalso. assert (Ea: f32_exp b = adj) by lia.
    pose proof (exp_kk b) as Ek. 
    assert (Hm: f32_man b = kk b mod 8 * 2^20 + (b / 2^19) mod 2 * 2^19 + b mod 2^19).
    { unfold f32_man, kk. npows. clear. lia. }
    rewrite mag_bits in M by lia. rewrite Ea in M.
    assert (0 < 2^(adj - 1)) by (apply N.neq_0_lt_0, N.pow_nonzero; lia).
    apply N.mul_lt_mono_pos_r in M; [|assumption].
    destruct (uu_cases b) as [U|[U [U1 U2]]]; rewrite U in B.
    + assert (1 <= kk b mod 8) by lia. clear - Hm M H1. npows. lia.
    + rewrite U2 in Hm. clear - Hm M. npows. lia.
  - rewrite C. cbn [orb]. clear C. split.
    + apply sign_pos. npows; lia.
    + assert (f32_mag 0 < f32_mag ((adj - 1) * 2^23 + 2)).
      { apply mag_strict; npows; lia. }
      change (f32_mag 0) with 0 in *. lia.
Qed.

(** storing twice *)
Lemma enc_codes b bias : good_bias bias -> b < 2^32 -> f32_finite b -> (effective_bias bias < 12)%Z ->
  unstable_code bias (floatToQuarter (Z.of_N b) bias) = false.
Proof.
  intros Hb H F HB.
  rewrite enc_closed; auto; [| change (2^32)%Z with 4294967296%Z; npows; lia | now apply fin_Z].
  destruct (eff_range bias Hb) as [Hbias _].
  unfold enc_form, unstable_code. set (bi := effective_bias bias) in *. clearbody bi. unfold good_bias in *.
  replace (12 <=? bi)%Z with false by lia. rewrite andb_false_r, orb_false_r.
  pose proof (fin_Z b F) as Hfin.
  set (B := Z.of_N b) in *. assert (HB2: (0 <= B < 2^32)%Z) by (unfold B; change (2^32)%Z with 4294967296%Z; npows; lia).
  set (s := (B / 2^31)%Z). assert (Hs: (0 <= s <= 1)%Z) by (unfold s; change (2^32)%Z with 4294967296%Z in *; change (2^31)%Z with 2147483648%Z; clear - HB2; lia).
  set (e := ((B / 2^23) mod 256)%Z) in *. assert (He: (0 <= e < 255)%Z) by (unfold e in *; clear - Hfin; lia).
  set (r := ((B / 2^20) mod 8)%Z). assert (Hr: (0 <= r < 8)%Z) by (unfold r; clear; lia).
  set (x := ((B / 2^19) mod 2)%Z).
  set (rm := (r + b2z ((r <? 7) && (x >? 0)))%Z).
  assert (Hrm: (0 <= rm < 8)%Z).
  { unfold rm. destruct (Z.ltb_spec r 7), (x >? 0)%Z; cbn [b2z andb]; clear - Hr H0; lia. }
  clearbody s e rm.
  destruct (Z.geb_spec e (127 - bi + 15)); [lia|].
  destruct (Z.ltb_spec e (127 - bi)).
  - destruct (s =? 1)%Z; [lia|]. cbn [Z.eqb]. destruct (nz B && (e >=? 115)%Z); reflexivity.
  - set (c := ((e - (127 - bi)) * 8 + rm)%Z). assert (Hc: (0 <= c < 120)%Z) by (unfold c; lia). clearbody c.
    destruct (s =? 1)%Z; [lia|]. destruct (Z.eqb_spec c 0); [|lia].
    destruct (nz B && (e >=? 115)%Z); reflexivity.
Qed.

Lemma dec_range q bias : good_bias bias -> (0 <= q < 256)%Z -> (0 <= quarterToFloat q bias < 2^32)%Z.
Proof. intros. unfold quarterToFloat. cbv zeta. unfold u32 at 1. apply Z.mod_pos_bound. lia. Qed.

Lemma store_idempotent b bias : good_bias bias -> (effective_bias bias < 12)%Z -> b < 2^32 -> f32_finite b ->
  quarter_store (quarter_store b bias) bias = quarter_store b bias.
Proof.
  intros Hb HB H F. unfold quarter_store.
  assert (R: (0 <= floatToQuarter (Z.of_N b) bias < 256)%Z).
  { apply enc_range; auto. change (2^32)%Z with 4294967296%Z; npows; lia. }
  pose proof (dec_range _ bias Hb R) as D.
  rewrite Z2N.id by lia.
  rewrite (proj2 (codes_stable bias _ Hb R)); auto. now apply enc_codes.
Qed.

(** estimateBias *)
Lemma estimate_loop_spec fits lo p n :
  let r := estimate_bias_loop fits lo p n in
  (exists i, (0 <= i < Z.of_nat n)%Z /\ r = (p - i)%Z /\ fits r = true /\
     forall j, (0 <= j < i)%Z -> fits (p - j)%Z = false) \/
  (r = lo /\ forall j, (0 <= j < Z.of_nat n)%Z -> fits (p - j)%Z = false).
Proof.
  revert p; induction n; intro p; cbn [estimate_bias_loop]; cbv zeta.
  - right. split; auto. intros; lia.
  - destruct (fits p) eqn:E.
    + left. exists 0%Z. repeat split; auto; try lia. 
    + destruct (IHn (p - 1)%Z) as [(i & A & B & C & D)|[A B]].
      * left. exists (i + 1)%Z. split; [lia|]. split; [lia|]. split; [exact C|].
        intros j Hj. destruct (Z.eq_dec j 0) as [->|]. now rewrite Z.sub_0_r.
        replace (p - j)%Z with (p - 1 - (j - 1))%Z by lia. apply D; lia.
      * right. split; auto. intros j Hj. destruct (Z.eq_dec j 0) as [->|]. now rewrite Z.sub_0_r.
        replace (p - j)%Z with (p - 1 - (j - 1))%Z by lia. apply B; lia.
Qed.

Lemma estimate_bias_spec fits lo hi : (lo <= hi)%Z ->
  let r := estimateBias fits lo hi in
  (lo <= r <= hi)%Z /\
  (forall b, (lo <= b <= hi)%Z -> fits b = true -> fits r = true /\ (b <= r)%Z).
Proof.
  intros H. unfold estimateBias.
  destruct (estimate_loop_spec fits lo hi (Z.to_nat (hi - lo + 1))) as [(i & A & B & C & D)|[A B]].
  - cbv zeta in *. rewrite B in *. split; [lia|]. intros b Hb Fb. split; auto.
    destruct (Z_le_gt_dec b (hi - i)); auto.
    specialize (D (hi - b)%Z). replace (hi - (hi - b))%Z with b in D by lia. rewrite D in Fb by lia. discriminate.
  - cbv zeta in *. rewrite A in *. split; [lia|]. intros b Hb Fb.
    specialize (B (hi - b)%Z). replace (hi - (hi - b))%Z with b in B by lia. rewrite B in Fb by lia. discriminate.
Qed.

(** Statements in plain form for the property file. *)
Lemma eff_12 bias : ((12 <= effective_bias bias) <-> (12 <= bias))%Z.
Proof. unfold effective_bias. destruct (Z.eqb_spec bias 0); cbn [b2z negb]; lia. Qed.

Lemma codes_stable_plain bias q : (-111 <= bias <= 126)%Z -> (0 <= q < 256)%Z ->
  (floatToQuarter (quarterToFloat q bias) bias = q <->
   ~ (121 <= q <= 127)%Z /\ ~ (249 <= q <= 254)%Z /\ ~ (q = 128 /\ 12 <= bias)%Z).
Proof.
  intros Hb Hq. rewrite (codes_stable bias q Hb Hq). unfold unstable_code.
  pose proof (eff_12 bias). set (e := effective_bias bias) in *. clearbody e. lia.
Qed.

Lemma store_idempotent_plain b bias : (-111 <= bias < 12)%Z -> b < 2^32 -> f32_finite b ->
  quarter_store (quarter_store b bias) bias = quarter_store b bias.
Proof.
  intros Hb. apply store_idempotent; [unfold good_bias; lia|]. pose proof (eff_12 bias). lia.
Qed.

Lemma sign_summary b bias : (-111 <= bias <= 126)%Z -> b < 2^32 -> f32_finite b ->
    let adj := Z.to_N (127 - effective_bias bias) in
    (f32_sign b = false -> f32_sign (quarter_store b bias) = false) /\
    (f32_sign b = true -> 17 * 2^19 * 2^(adj - 1) <= f32_mag b -> f32_sign (quarter_store b bias) = true) /\
    (f32_sign b = true -> f32_mag b < 17 * 2^19 * 2^(adj - 1) ->
       f32_sign (quarter_store b bias) = false /\ f32_mag (quarter_store b bias) <> 0).
Proof.
  intros Hb H F adj. split; [|split].
  - intro S. apply store_nonneg; auto. unfold f32_sign in S. now apply N.leb_gt in S.
  - intros S M.
    destruct (N.lt_ge_cases (f32_mag b) (2^23 * 2^(adj + 14))) as [C|C].
    + destruct (store_in_range b bias Hb H F M C) as [E _]. congruence.
    + destruct (store_saturates b bias Hb H F C) as [E _]. congruence.
  - intros S M. apply store_negative_underflow; auto. apply sign_iff in S. auto.
Qed.
