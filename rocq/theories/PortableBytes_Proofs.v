From Coq Require Import NArith ZArith List Lia ZifyN ZifyNat.
From Verif Require Import PortableBytes_Model PortableBytes_Spec.
Import ListNotations.
Open Scope N_scope.
Ltac Zify.zify_post_hook ::= Z.div_mod_to_equations.

Lemma store_le_length n x : length (store_le n x) = n.
Proof. revert x; induction n; cbn; auto. Qed.

Lemma store_le_bytes n x : all_bytes (store_le n x).
Proof.
  unfold all_bytes. revert x; induction n; intro x; cbn; constructor; auto.
  apply N.mod_upper_bound. discriminate.
Qed.

Lemma load_store_le n x : x < 256 ^ N.of_nat n -> load_le (store_le n x) = x.
Proof.
  revert x; induction n; intros x Hx.
  - cbn in *. lia.
  - cbn [store_le load_le]. rewrite IHn.
    + pose proof (N.div_mod x 256). lia.
    + apply N.div_lt_upper_bound; try lia.
      rewrite Nat2N.inj_succ, N.pow_succ_r' in Hx. exact Hx.
Qed.

Lemma store_load_le bs : all_bytes bs -> store_le (length bs) (load_le bs) = bs.
Proof.
  induction bs as [|b r IH]; cbn [length store_le load_le]; auto.
  intros H; inversion H; subst.
  replace ((b + 256 * load_le r) mod 256) with b.
  - replace ((b + 256 * load_le r) / 256) with (load_le r).
    + now rewrite IH.
    + rewrite (N.mul_comm 256), N.div_add by lia. rewrite N.div_small by lia. lia.
  - rewrite (N.mul_comm 256), N.mod_add by lia. rewrite N.mod_small by lia. lia.
Qed.

(* masks and shifts as arithmetic *)
Lemma land_byte x k m : m = N.shiftl 255 k -> N.land x m = N.shiftl ((x / 2^k) mod 256) k.
Proof.
  intros ->. apply N.bits_inj; intro i.
  rewrite N.land_spec.
  destruct (N.lt_ge_cases i k) as [H|H].
  - rewrite !N.shiftl_spec_low by auto. now rewrite Bool.andb_false_r.
  - rewrite !N.shiftl_spec_high' by auto.
    rewrite <- N.shiftr_div_pow2. change 256 with (2^8). rewrite <- N.land_ones.
    rewrite N.land_spec, N.shiftr_spec'. replace (i - k + k) with i by lia.
    reflexivity.
Qed.

(* digits *)
Definition dig (x k : N) : N := (x / 2^k) mod 256.

Lemma dig_lt x k : dig x k < 256.
Proof. apply N.mod_upper_bound; lia. Qed.

Lemma shiftr_shiftl_ge a k j : j <= k -> N.shiftr (N.shiftl a k) j = N.shiftl a (k - j).
Proof. intro H. now rewrite N.shiftr_shiftl_l. Qed.

Lemma lor_add a b : N.land a b = 0 -> N.lor a b = a + b.
Proof. intro H. rewrite <- N.lxor_lor by auto. now rewrite N.add_nocarry_lxor. Qed.

Lemma land_low_high a b k : a < 2^k -> N.land (N.shiftl b k) a = 0.
Proof.
  intro Ha. apply N.bits_inj; intro i. rewrite N.land_spec, N.bits_0.
  destruct (N.lt_ge_cases i k) as [H|H].
  - now rewrite N.shiftl_spec_low by auto.
  - destruct (N.eq_dec a 0) as [->|Hz]; [rewrite N.bits_0; apply Bool.andb_false_r|].
    rewrite (N.bits_above_log2 a i); [apply Bool.andb_false_r|].
    apply N.log2_lt_pow2; [lia|]. eapply N.lt_le_trans; [exact Ha|].
    apply N.pow_le_mono_r; lia.
Qed.

Lemma lor_add_hl a b k : a < 2^k -> N.lor (N.shiftl b k) a = b * 2^k + a.
Proof.
  intro H. rewrite lor_add by (now apply land_low_high). now rewrite N.shiftl_mul_pow2.
Qed.

Lemma portable32_digits x :
  portable_bytes32 x = dig x 0 * 2^24 + (dig x 8 * 2^16 + (dig x 16 * 2^8 + dig x 24)).
Proof.
  unfold portable_bytes32.
  rewrite (land_byte x 0 0xff), (land_byte x 8 0xff00), (land_byte x 16 0xff0000),
    (land_byte x 24 0xff000000) by reflexivity.
  fold (dig x 0) (dig x 8) (dig x 16) (dig x 24).
  rewrite !N.shiftl_shiftl, !shiftr_shiftl_ge by lia.
  change (0 + 24) with 24. change (8+8) with 16. change (16-8) with 8. change (24-24) with 0.
  rewrite (N.shiftl_0_r (dig x 24)).
  rewrite <- !N.lor_assoc.
  pose proof (dig_lt x 0). pose proof (dig_lt x 8). pose proof (dig_lt x 16). pose proof (dig_lt x 24).
  rewrite (lor_add_hl _ _ 8) by (change (2^8) with 256; lia).
  rewrite (lor_add_hl _ _ 16) by (change (2^16) with 65536; change (2^8) with 256; lia).
  rewrite (lor_add_hl _ _ 24) by (change (2^24) with 16777216; change (2^16) with 65536; change (2^8) with 256; lia).
  reflexivity.
Qed.

Lemma portable16_digits x : x < 2^16 ->
  portable_bytes16 x = dig x 0 * 2^8 + dig x 8.
Proof.
  intro Hx. unfold portable_bytes16, dig.
  rewrite N.shiftr_div_pow2.
  change 0xffff with (N.ones 16). rewrite N.land_ones.
  rewrite (lor_add_hl _ _ 8).
  2:{ apply N.div_lt_upper_bound; change (2^8) with 256; change (2^16) with 65536 in Hx; lia. }
  change (2^8) with 256 in *. change (2^16) with 65536 in *. change (2^0) with 1.
  lia.
Qed.

Lemma portable64_digits x :
  portable_bytes64 x =
  dig x 0 * 2^56 + (dig x 8 * 2^48 + (dig x 16 * 2^40 + (dig x 24 * 2^32 +
  (dig x 32 * 2^24 + (dig x 40 * 2^16 + (dig x 48 * 2^8 + dig x 56)))))).
Proof.
  unfold portable_bytes64.
  rewrite (land_byte x 0 0xff), (land_byte x 8 0xff00), (land_byte x 16 0xff0000),
    (land_byte x 24 0xff000000), (land_byte x 32 0xff00000000), (land_byte x 40 0xff0000000000),
    (land_byte x 48 0xff000000000000), (land_byte x 56 0xff00000000000000) by reflexivity.
  fold (dig x 0) (dig x 8) (dig x 16) (dig x 24) (dig x 32) (dig x 40) (dig x 48) (dig x 56).
  rewrite !N.shiftl_shiftl, !shiftr_shiftl_ge by lia.
  change (0+56) with 56. change (8+40) with 48. change (16+24) with 40. change (24+8) with 32.
  change (32-8) with 24. change (40-24) with 16. change (48-40) with 8. change (56-56) with 0.
  rewrite (N.shiftl_0_r (dig x 56)).
  rewrite <- !N.lor_assoc.
  pose proof (dig_lt x 0). pose proof (dig_lt x 8). pose proof (dig_lt x 16). pose proof (dig_lt x 24).
  pose proof (dig_lt x 32). pose proof (dig_lt x 40). pose proof (dig_lt x 48). pose proof (dig_lt x 56).
  rewrite (lor_add_hl _ _ 8) by (change (2^8) with 256; lia).
  rewrite (lor_add_hl _ _ 16) by (change (2^16) with 65536; change (2^8) with 256; lia).
  rewrite (lor_add_hl _ _ 24) by (change (2^24) with 16777216; change (2^16) with 65536; change (2^8) with 256; lia).
  rewrite (lor_add_hl _ _ 32) by (change (2^32) with 4294967296; change (2^24) with 16777216; change (2^16) with 65536; change (2^8) with 256; lia).
  rewrite (lor_add_hl _ _ 40) by (change (2^40) with 1099511627776; change (2^32) with 4294967296; change (2^24) with 16777216; change (2^16) with 65536; change (2^8) with 256; lia).
  rewrite (lor_add_hl _ _ 48) by (change (2^48) with 281474976710656; change (2^40) with 1099511627776; change (2^32) with 4294967296; change (2^24) with 16777216; change (2^16) with 65536; change (2^8) with 256; lia).
  rewrite (lor_add_hl _ _ 56) by (change (2^56) with 72057594037927936; change (2^48) with 281474976710656; change (2^40) with 1099511627776; change (2^32) with 4294967296; change (2^24) with 16777216; change (2^16) with 65536; change (2^8) with 256; lia).
  reflexivity.
Qed.

(* Little-endian digits *)
Lemma store_le_dig4 x : store_le 4 x = [dig x 0; dig x 8; dig x 16; dig x 24].
Proof.
  unfold dig. cbn [store_le].
  rewrite !N.div_div by lia. change (2^0) with 1. rewrite N.div_1_r. reflexivity.
Qed.
Lemma store_le_dig2 x : store_le 2 x = [dig x 0; dig x 8].
Proof.
  unfold dig. cbn [store_le]. change (2^0) with 1. rewrite N.div_1_r. reflexivity.
Qed.
Lemma store_le_dig8 x : store_le 8 x =
  [dig x 0; dig x 8; dig x 16; dig x 24; dig x 32; dig x 40; dig x 48; dig x 56].
Proof.
  unfold dig. cbn [store_le].
  rewrite !N.div_div by lia. change (2^0) with 1. rewrite N.div_1_r. reflexivity.
Qed.

Lemma load_le_4 a b c d : load_le [d;c;b;a] = a * 2^24 + (b * 2^16 + (c * 2^8 + d)).
Proof. cbn [load_le]. change (2^24) with 16777216; change (2^16) with 65536; change (2^8) with 256. lia. Qed.
Lemma load_le_2 a b : load_le [b;a] = a * 2^8 + b.
Proof. cbn [load_le]. change (2^8) with 256. lia. Qed.
Lemma load_le_8 a b c d e f g h : load_le [h;g;f;e;d;c;b;a] =
  a * 2^56 + (b * 2^48 + (c * 2^40 + (d * 2^32 + (e * 2^24 + (f * 2^16 + (g * 2^8 + h)))))).
Proof.
  cbn [load_le].
  change (2^56) with 72057594037927936; change (2^48) with 281474976710656; change (2^40) with 1099511627776; change (2^32) with 4294967296; change (2^24) with 16777216; change (2^16) with 65536; change (2^8) with 256. lia.
Qed.

Lemma portable32_rev x : portable_bytes32 x = load_le (rev (store_le 4 x)).
Proof. rewrite portable32_digits, store_le_dig4. cbn [rev app]. now rewrite load_le_4. Qed.
Lemma portable16_rev x : x < 2^16 -> portable_bytes16 x = load_le (rev (store_le 2 x)).
Proof. intro. rewrite portable16_digits, store_le_dig2 by auto. cbn [rev app]. now rewrite load_le_2. Qed.
Lemma portable64_rev x : portable_bytes64 x = load_le (rev (store_le 8 x)).
Proof. rewrite portable64_digits, store_le_dig8. cbn [rev app]. now rewrite load_le_8. Qed.

Lemma all_bytes_rev bs : all_bytes bs -> all_bytes (rev bs).
Proof. apply Forall_rev. Qed.

Lemma store_load_rev n x : store_le n (load_le (rev (store_le n x))) = rev (store_le n x).
Proof.
  rewrite <- (store_load_le (rev (store_le n x))) at 2 by (apply all_bytes_rev, store_le_bytes).
  now rewrite rev_length, store_le_length.
Qed.

Lemma store_portable32 x : store_le 4 (portable_bytes32 x) = rev (store_le 4 x).
Proof. now rewrite portable32_rev, store_load_rev. Qed.
Lemma store_portable64 x : store_le 8 (portable_bytes64 x) = rev (store_le 8 x).
Proof. now rewrite portable64_rev, store_load_rev. Qed.
Lemma store_portable16 x : x < 2^16 -> store_le 2 (portable_bytes16 x) = rev (store_le 2 x).
Proof. intro. now rewrite portable16_rev, store_load_rev. Qed.

Lemma load_le_bound bs : all_bytes bs -> load_le bs < 256 ^ N.of_nat (length bs).
Proof.
  induction bs as [|b r IH]; cbn [load_le length]; intro H.
  - cbn; lia.
  - inversion H; subst. rewrite Nat2N.inj_succ, N.pow_succ_r'. specialize (IH H3). lia.
Qed.

Lemma load_rev_bound n x : load_le (rev (store_le n x)) < 256 ^ N.of_nat n.
Proof.
  pose proof (load_le_bound (rev (store_le n x))) as H.
  rewrite rev_length, store_le_length in H. apply H, all_bytes_rev, store_le_bytes.
Qed.

Lemma portable32_bound x : portable_bytes32 x < 2^32.
Proof. rewrite portable32_rev. apply (load_rev_bound 4). Qed.
Lemma portable64_bound x : portable_bytes64 x < 2^64.
Proof. rewrite portable64_rev. apply (load_rev_bound 8). Qed.
Lemma portable16_bound x : x < 2^16 -> portable_bytes16 x < 2^16.
Proof. intro. rewrite portable16_rev by auto. apply (load_rev_bound 2). Qed.

Lemma rev_twice n x : x < 256 ^ N.of_nat n ->
  load_le (rev (store_le n (load_le (rev (store_le n x))))) = x.
Proof. intro H. rewrite store_load_rev, rev_involutive. now apply load_store_le. Qed.

Lemma portable32_involutive x : x < 2^32 -> portable_bytes32 (portable_bytes32 x) = x.
Proof. intro. rewrite !portable32_rev. now apply rev_twice. Qed.
Lemma portable64_involutive x : x < 2^64 -> portable_bytes64 (portable_bytes64 x) = x.
Proof. intro. rewrite !portable64_rev. now apply rev_twice. Qed.
Lemma portable16_involutive x : x < 2^16 -> portable_bytes16 (portable_bytes16 x) = x.
Proof.
  intro. rewrite (portable16_rev (portable_bytes16 x)) by now apply portable16_bound.
  rewrite portable16_rev by auto. now apply rev_twice.
Qed.

(* big endian *)
Lemma be_app a b : big_endian_value (a ++ [b]) = big_endian_value a * 256 + b.
Proof. unfold big_endian_value. now rewrite fold_left_app. Qed.

Lemma be_rev bs : big_endian_value (rev bs) = load_le bs.
Proof.
  induction bs as [|b r IH]; cbn [rev load_le]; [reflexivity|].
  rewrite be_app, IH. lia.
Qed.

Lemma store_portable32_be x : x < 2^32 -> big_endian_value (store_le 4 (portable_bytes32 x)) = x.
Proof. intro. rewrite store_portable32, be_rev. now apply load_store_le. Qed.
Lemma store_portable64_be x : x < 2^64 -> big_endian_value (store_le 8 (portable_bytes64 x)) = x.
Proof. intro. rewrite store_portable64, be_rev. now apply load_store_le. Qed.
Lemma store_portable16_be x : x < 2^16 -> big_endian_value (store_le 2 (portable_bytes16 x)) = x.
Proof. intro. rewrite store_portable16, be_rev by auto. now apply load_store_le. Qed.
