(** Proofs about numbers as text. *)
From Coq Require Import Ascii String List Bool Arith NArith ZArith Reals Lia Lra Psatz.
From Flocq Require Import Core.
From Verif Require Import Chars Outcome Delimited_Model NumText_Model.
Import ListNotations.
Local Open Scope N_scope.

Lemma digit_code : forall n, n < 10 -> isdigit (digit_char n) = true /\ code (digit_char n) - 48 = n.
Proof.
  intros n H. unfold isdigit, code, digit_char. rewrite N_ascii_embedding by lia. split; [|lia].
  apply andb_true_iff. rewrite !N.leb_le. lia.
Qed.
(** A text of digits with a value. *)
Definition is_decimal (ds : str) (n : N) : Prop :=
  Forall (fun c => isdigit c = true) ds /\
  forall s v c, read_digits (ds ++ s) v c = read_digits s (v * 10 ^ N.of_nat (length ds) + n) (c + length ds)%nat.
Lemma digits_ok : forall fuel n acc, n < 2 ^ N.of_nat (S fuel) -> exists ds, digits (S fuel) n acc = ds ++ acc /\ ds <> [] /\ is_decimal ds n.
Proof.
  induction fuel as [|fuel IH]; intros n acc Hn.
  - change (2 ^ N.of_nat 1) with 2 in Hn. cbn [digits]. destruct (N.ltb_spec n 10); [|lia]. rewrite N.mod_small by lia. destruct (digit_code n) as [D1 D2]; [lia|].
    exists [digit_char n]. split; [reflexivity|]. split; [discriminate|]. split; [now constructor|]. intros s v c. cbn [app read_digits length]. rewrite D1, D2.
    change (10 ^ N.of_nat 1) with 10; f_equal; lia.
  - change (digits (S (S fuel)) n acc) with (if n <? 10 then digit_char (n mod 10) :: acc else digits (S fuel) (n / 10) (digit_char (n mod 10) :: acc)).
    assert (M : n mod 10 < 10) by (apply N.mod_lt; lia). destruct (digit_code (n mod 10) M) as [D1 D2]. destruct (N.ltb_spec n 10) as [L|L].
    + exists [digit_char (n mod 10)]. split; [reflexivity|]. split; [discriminate|]. split; [now constructor|]. intros s v c. cbn [app read_digits length]. rewrite D1, D2.
      rewrite N.mod_small by lia. change (10 ^ N.of_nat 1) with 10; f_equal; lia.
    + destruct (IH (n / 10) (digit_char (n mod 10) :: acc)) as (ds & E & _ & F & G).
      { apply N.div_lt_upper_bound; [lia|]. rewrite Nat2N.inj_succ, N.pow_succ_r' in Hn. lia. }
      exists (ds ++ [digit_char (n mod 10)]). split; [rewrite E, <- app_assoc; reflexivity|]. split; [now destruct ds|]. split; [apply Forall_app; split; [exact F|now constructor]|].
      intros s v c. rewrite <- app_assoc, G. cbn [app read_digits]. rewrite D1, D2. rewrite app_length. cbn [length]. rewrite Nat2N.inj_add. change (N.of_nat 1) with 1. rewrite N.pow_add_r, N.pow_1_r.
      pose proof (N.div_mod n 10). f_equal; lia.
Qed.
Lemma asString_uint_ok : forall n, asString_uint n <> [] /\ is_decimal (asString_uint n) n.
Proof.
  intros n. unfold asString_uint. destruct (digits_ok (N.size_nat n) n []) as (ds & E & H & D).
  - rewrite Nat2N.inj_succ, N.pow_succ_r'. assert (n < 2 ^ N.of_nat (N.size_nat n)); [|lia]. destruct n as [|p]; [reflexivity|].
    assert (S1 : N.of_nat (N.size_nat (N.pos p)) = N.size (N.pos p)).
    { cbn [N.size_nat N.size]. clear. induction p as [p IH|p IH|]; [| |reflexivity]; cbn [Pos.size_nat Pos.size]; rewrite Nat2N.inj_succ, IH; cbn; lia. }
    rewrite S1. apply N.size_gt.
  - rewrite E, app_nil_r. now split.
Qed.
Lemma digit_not_white : forall c, isdigit c = true -> isspace c = false /\ ceq c "-" = false /\ ceq c "+" = false /\ ceq c "." = false.
Proof.
  intros c H. unfold isdigit in H. apply andb_true_iff in H as [H1 H2]. apply N.leb_le in H1. apply N.leb_le in H2. split.
  - unfold isspace. rewrite !orb_false_iff, andb_false_iff, N.eqb_neq, !N.leb_gt. lia.
  - repeat split; match goal with |- ceq _ ?x = false => destruct (ceq_spec c x) as [->|]; [exfalso; cbn in H1, H2; lia|reflexivity] end.
Qed.
Lemma decimal_start : forall ds n s, is_decimal ds n -> ds <> [] -> lstrip (ds ++ s) = ds ++ s /\ read_sign (ds ++ s) = (false, ds ++ s).
Proof.
  intros [|c ds] n s [F _] N; [congruence|]. inversion F as [|? ? D _]; subst. destruct (digit_not_white c D) as (A & B & C & _). cbn [app lstrip read_sign]. now rewrite A, B, C.
Qed.
Lemma read_digits_stop : forall s v c, match s with d :: _ => isdigit d = false | [] => True end -> read_digits s v c = (v, c, s).
Proof. intros [|d s] v c H; cbn [read_digits]; [reflexivity|]. now rewrite H. Qed.
Lemma stoull_asString : forall n, n < two64 -> stoull (asString_uint n) = Ok n.
Proof.
  intros n H. destruct (asString_uint_ok n) as [E D]. destruct (decimal_start _ n [] D E) as [L S1]. rewrite app_nil_r in L, S1. unfold stoull. rewrite L, S1.
  destruct D as [_ D]. specialize (D [] 0 0%nat). rewrite app_nil_r in D. rewrite D. cbn [read_digits]. destruct (asString_uint n) eqn:A; [congruence|]. cbn [length Nat.add Nat.eqb].
  rewrite N.mul_0_l, N.add_0_l. destruct (N.leb_spec two64 n); [lia|reflexivity].
Qed.
Lemma stoul32_asString : forall n, n < two32 -> stoul32 (asString_uint n) = Ok n.
Proof. intros n H. unfold stoul32. rewrite stoull_asString by (unfold two32, two64 in *; lia). cbn [obind]. rewrite N.mod_small by exact H. reflexivity. Qed.
Lemma asString_uint_inj : forall a b, asString_uint a = asString_uint b -> a = b.
Proof.
  intros a b E. destruct (asString_uint_ok a) as [_ [_ A]]. destruct (asString_uint_ok b) as [_ [_ B]]. specialize (A [] 0 0%nat). specialize (B [] 0 0%nat). rewrite E in A. rewrite A in B.
  cbn [read_digits] in B. injection B as B. lia.
Qed.
Lemma asBool_asString : forall b, asBool (asString_bool b) = b.
Proof. now intros [|]. Qed.

Lemma last_digits_ok : forall k n, is_decimal (last_digits k n) (n mod 10 ^ N.of_nat k) /\ length (last_digits k n) = k.
Proof.
  induction k as [|k IH]; intros n.
  - cbn [last_digits length]. change (10 ^ N.of_nat 0) with 1. rewrite N.mod_1_r. split; [|reflexivity]. split; [constructor|]. intros s v c. cbn [app length]. change (10 ^ N.of_nat 0) with 1. f_equal; lia.
  - cbn [last_digits length]. destruct (IH n) as [[F G] L]. set (d := n / 10 ^ N.of_nat k mod 10). assert (Hd : d < 10) by (apply N.mod_lt; lia). destruct (digit_code d Hd) as [D1 D2].
    split; [|congruence]. split; [now constructor|]. intros s v c. cbn [app read_digits length]. rewrite D1, D2, G, L. rewrite Nat2N.inj_succ, N.pow_succ_r'. replace (S c + k)%nat with (c + S k)%nat by lia. f_equal.
    assert (P : 10 ^ N.of_nat k <> 0) by (apply N.pow_nonzero; lia). replace (10 * 10 ^ N.of_nat k) with (10 ^ N.of_nat k * 10) by lia. rewrite N.mod_mul_r by lia. fold d. lia.
Qed.

Local Open Scope R_scope.
Lemma stof_fixed15 : forall (neg : bool) (k : N), let x := IZR (Z.of_N k) / 10 ^ 15 in let y := to_float (if neg then - x else x) in
  Rabs y < bpow radix2 128 -> stof (fixed15 neg k) = Ok y.
Proof.
  intros neg k x y Hy. unfold stof, fixed15. destruct (asString_uint_ok (k / 10 ^ 15)) as [E D]. destruct (last_digits_ok 15 k) as [[F G] L].
  set (tail := "."%char :: last_digits 15 k).
  assert (W : read_sign (lstrip ((if neg then ["-"%char] else []) ++ asString_uint (k / 10 ^ 15) ++ tail)) = (neg, asString_uint (k / 10 ^ 15) ++ tail)).
  { destruct (decimal_start _ _ tail D E) as [A B]. destruct neg; [reflexivity|]. cbn [app]. now rewrite A, B. }
  rewrite W. destruct D as [_ D]. rewrite D. rewrite (read_digits_stop tail) by reflexivity. unfold tail. cbv beta iota. rewrite ceq_refl. rewrite N.mul_0_l, N.add_0_l.
  specialize (G [] (k / 10 ^ 15)%N 0%nat). rewrite app_nil_r in G. rewrite G, L. cbn [read_digits]. cbv beta iota. rewrite !Nat.add_0_l. destruct (Nat.eqb_spec (length (asString_uint (k / 10 ^ 15)) + 15) 0); [lia|].
  assert (K : (k / 10 ^ 15 * 10 ^ N.of_nat 15 + k mod 10 ^ N.of_nat 15 = k)%N). { change (N.of_nat 15) with 15%N. rewrite (N.div_mod k (10 ^ 15)) at 3 by (compute; discriminate). lia. }
  rewrite K. fold x. fold y. destruct (Rle_dec (bpow radix2 128) (Rabs y)); [lra|]. destruct (Rlt_dec 0 x) as [P|]; [|reflexivity]. destruct (Rlt_dec (Rabs y) (bpow radix2 (-126))) as [Q|]; [|reflexivity]. exfalso.
  assert (X : bpow radix2 (-126) <= x).
  { assert (1 <= IZR (Z.of_N k)). { apply IZR_le. destruct k; [unfold x in P; cbn in P; lra|]. lia. }
    apply Rle_trans with (/ 10 ^ 15).
    - apply Rle_trans with (bpow radix2 (-50)); [apply bpow_le; lia|]. rewrite (bpow_opp radix2 50 : bpow radix2 (-50) = _). apply Rinv_le_contravar; [apply pow_lt; lra|]. rewrite <- (IZR_Zpower radix2 50) by lia. rewrite (pow_IZR 10 15). apply IZR_le. lazy. discriminate.
    - unfold x, Rdiv. assert (0 < / 10 ^ 15) by (apply Rinv_0_lt_compat, pow_lt; lra). assert (1 * / 10 ^ 15 <= IZR (Z.of_N k) * / 10 ^ 15) by (apply Rmult_le_compat_r; lra). lra. }
  assert (B : generic_format radix2 (FLT_exp (-149) 24) (bpow radix2 (-126))). { apply generic_format_bpow. unfold FLT_exp. lia. }
  assert (Y : bpow radix2 (-126) <= Rabs y).
  { unfold y, to_float. destruct neg.
    - rewrite round_NE_opp, Rabs_Ropp. apply abs_round_ge_generic; [apply FLT_exp_valid; reflexivity|apply valid_rnd_N|exact B|]. rewrite Rabs_pos_eq; lra.
    - apply abs_round_ge_generic; [apply FLT_exp_valid; reflexivity|apply valid_rnd_N|exact B|]. rewrite Rabs_pos_eq; lra. }
  lra.
Qed.

(** Floats of at least [2^-26] are multiples of [2^-49]. *)
Lemma float_multiple : forall x, generic_format radix2 (FLT_exp (-149) 24) x -> bpow radix2 (-26) <= Rabs x -> exists z, x = IZR z * bpow radix2 (-49).
Proof.
  intros x F H. assert (M : (-25 <= mag radix2 x)%Z) by (apply (mag_ge_bpow radix2 x (-25)); exact H).
  rewrite F. unfold F2R. cbn [Fnum Fexp]. set (m := Ztrunc (scaled_mantissa radix2 (FLT_exp (-149) 24) x)).
  assert (C : (-49 <= cexp radix2 (FLT_exp (-149) 24) x)%Z) by (unfold cexp, FLT_exp; lia). set (e := cexp radix2 (FLT_exp (-149) 24) x) in *.
  exists (m * 2 ^ (e - (-49)))%Z. rewrite mult_IZR. rewrite (IZR_Zpower radix2) by lia. rewrite Rmult_assoc, <- bpow_plus. do 2 f_equal. lia.
Qed.
Lemma multiples_apart : forall a b, Rabs (IZR a * bpow radix2 (-49) - IZR b * bpow radix2 (-49)) < bpow radix2 (-49) -> a = b.
Proof.
  intros a b H. rewrite <- Rmult_minus_distr_r, <- minus_IZR, Rabs_mult, (Rabs_pos_eq (bpow _ _)) in H by apply bpow_ge_0. pose proof (bpow_gt_0 radix2 (-49)) as P.
  assert (Q : Rabs (IZR (a - b)) < 1). { apply Rmult_lt_reg_r with (bpow radix2 (-49)); [exact P|]. lra. }
  rewrite <- abs_IZR in Q. apply lt_IZR in Q. lia.
Qed.
Lemma ten15 : / 10 ^ 15 < bpow radix2 (-49).
Proof.
  rewrite (bpow_opp radix2 49 : bpow radix2 (-49) = _). apply Rinv_lt_contravar.
  - apply Rmult_lt_0_compat; [apply bpow_gt_0|apply pow_lt; lra].
  - rewrite <- (IZR_Zpower radix2 49) by lia. rewrite (pow_IZR 10 15). apply IZR_lt. lazy. reflexivity.
Qed.
Lemma float_read_back : forall x, generic_format radix2 (FLT_exp (-149) 24) x -> Rabs x < bpow radix2 128 -> x = 0 \/ bpow radix2 (-25) <= Rabs x ->
  stof (asString_float x) = Ok x.
Proof.
  intros x F B S1. unfold asString_float. set (z := ZnearestE (x * 10 ^ 15)). pose proof (Znearest_half (fun t => negb (Z.even t)) (x * 10 ^ 15)) as H. fold z in H.
  assert (T : 0 < 10 ^ 15) by (apply pow_lt; lra). pose proof ten15 as T15. assert (Ti : 0 < / 10 ^ 15) by (apply Rinv_0_lt_compat; exact T).
  assert (D : Rabs (IZR z / 10 ^ 15 - x) <= / 2 * / 10 ^ 15).
  { replace (IZR z / 10 ^ 15 - x) with (- ((x * 10 ^ 15 - IZR z) * / 10 ^ 15)) by (field; lra). rewrite Rabs_Ropp, Rabs_mult, (Rabs_pos_eq (/ 10 ^ 15)) by lra. apply Rmult_le_compat_r; lra. }
  assert (P25 : bpow radix2 (-25) = 2 * bpow radix2 (-26)). { change (-25)%Z with (1 + -26)%Z. rewrite bpow_plus. reflexivity. }
  assert (P26 : bpow radix2 (-49) < bpow radix2 (-26)) by (apply bpow_lt; lia). pose proof (bpow_gt_0 radix2 (-26)) as P0.
  assert (Z1 : (if (if Rlt_dec x 0 then true else false) then - (IZR (Z.of_N (Z.abs_N z)) / 10 ^ 15) else IZR (Z.of_N (Z.abs_N z)) / 10 ^ 15) = IZR z / 10 ^ 15).
  { rewrite N2Z.inj_abs_N. destruct (Rlt_dec x 0) as [N|N].
    - assert (z <= 0)%Z. { apply le_IZR. apply Rnot_lt_le. intros Q. assert (1 <= IZR z) by (apply IZR_le; apply lt_IZR in Q; lia). assert (x * 10 ^ 15 < 0) by (apply Rmult_lt_0_compat with (r1 := - x) in T; lra). apply Rabs_le_inv in H. lra. }
      rewrite Z.abs_neq by lia. rewrite opp_IZR. field; lra.
    - assert (0 <= z)%Z. { apply le_IZR. apply Rnot_lt_le. intros Q. assert (IZR z <= -1) by (apply IZR_le; apply lt_IZR in Q; lia). assert (0 <= x * 10 ^ 15) by (apply Rmult_le_pos; lra). apply Rabs_le_inv in H. lra. }
      rewrite Z.abs_eq by lia. reflexivity. }
  assert (Y : to_float (IZR z / 10 ^ 15) = x).
  { destruct S1 as [->|S1].
    - assert (z = 0)%Z as ->. { rewrite Rmult_0_l in H. unfold Rminus in H. rewrite Rplus_0_l, Rabs_Ropp, <- abs_IZR in H. assert (IZR (Z.abs z) < 1) by lra. apply lt_IZR in H0. lia. }
      unfold Rdiv. rewrite Rmult_0_l. apply round_0, valid_rnd_N.
    - set (y := IZR z / 10 ^ 15) in *. assert (V : Valid_exp (FLT_exp (-149) 24)) by (apply FLT_exp_valid; reflexivity). pose proof (round_N_pt radix2 (FLT_exp (-149) 24) (fun t => negb (Z.even t)) y) as [Fr Nr]. change (round radix2 (FLT_exp (-149) 24) (Znearest (fun t => negb (Z.even t))) y) with (to_float y) in Fr, Nr. specialize (Nr x F).
      rewrite (Rabs_minus_sym x y) in Nr.
      assert (C : Rabs (to_float y - x) < bpow radix2 (-49)).
      { replace (to_float y - x) with ((to_float y - y) + (y - x)) by ring. eapply Rle_lt_trans; [apply Rabs_triang|]. lra. }
      destruct (float_multiple x F) as [a Ea]; [lra|]. destruct (float_multiple (to_float y) Fr) as [b Eb].
      { apply Rabs_lt_inv in C. assert (Rabs x - Rabs (to_float y) <= Rabs (x - to_float y)) by apply Rabs_triang_inv. rewrite Rabs_minus_sym in H0. assert (Rabs (to_float y - x) < bpow radix2 (-49)) by (apply Rabs_lt; lra). lra. }
      rewrite Ea, Eb in C |- *. apply multiples_apart in C. now rewrite C. }
  rewrite <- Y at 2. rewrite <- Z1. apply stof_fixed15. cbv zeta. rewrite Z1, Y. exact B.
Qed.
Lemma tiny_float_lost : forall x, Rabs x < / 2 * / 10 ^ 15 -> stof (asString_float x) = Ok 0.
Proof.
  intros x H. unfold asString_float. assert (T : 0 < 10 ^ 15) by (apply pow_lt; lra). assert (z0 : ZnearestE (x * 10 ^ 15) = 0%Z).
  { apply Znearest_imp. unfold Rminus. rewrite Ropp_0, Rplus_0_r, Rabs_mult, (Rabs_pos_eq (10 ^ 15)) by lra. apply Rmult_lt_compat_r with (r := 10 ^ 15) in H; [|lra].
    replace (/ 2 * / 10 ^ 15 * 10 ^ 15) with (/ 2) in H by (field; lra). lra. }
  rewrite z0. cbn [Z.abs_N]. assert (E : forall b : bool, to_float (if b then - (IZR (Z.of_N 0) / 10 ^ 15) else IZR (Z.of_N 0) / 10 ^ 15) = 0).
  { intros b. cbn [Z.of_N]. replace (if b then - (0 / 10 ^ 15) else 0 / 10 ^ 15) with 0 by (destruct b; field; lra). apply round_0, valid_rnd_N. }
  set (b := if Rlt_dec x 0 then true else false). clearbody b. rewrite <- (E b). apply stof_fixed15. cbv zeta. rewrite E, Rabs_R0. apply bpow_gt_0.
Qed.
