From Coq Require Import List Arith Bool NArith ZArith Reals Lia Lra.
From Flocq Require Import Core Plus_error IEEE754.BinarySingleNaN IEEE754.Binary IEEE754.Bits.
From Verif Require Import F32_Model F32_Proofs Scaling_Model Reduce_Model FloatNet_Model FloatNet_Spec FloatNet_Proofs FloatNet_Props FloatSoft_Proofs FloatOpt_Proofs FloatScale_Model.
Import ListNotations.
Local Open Scope R_scope.

Lemma around x b : Rabs (x - b) <= 0 -> x = b.
Proof. intros H. apply Rabs_le_inv in H. lra. Qed.
Lemma close_to x : - (unit_error * Rabs x + tiny) <= rnd x - x <= unit_error * Rabs x + tiny.
Proof. apply Rabs_le_inv. apply rounded_error. Qed.
Lemma close_below x b : Rabs x <= b -> - (unit_error * b + tiny) <= rnd x - x <= unit_error * b + tiny.
Proof. intros H. pose proof (close_to x). assert (unit_error * Rabs x <= unit_error * b) by (apply Rmult_le_compat_l; [left; apply unit_pos|exact H]). lra. Qed.
Lemma distinct_floats x y : F32 x -> F32 y -> y < x -> 0 < rnd (x - y).
Proof.
  intros Fx Fy L. assert (H : 0 <= rnd (x - y)) by (apply rnd_ge0; lra). assert (N : rnd (x - y) <> 0); [|lra].
  change (x - y) with (x + - y). apply round_plus_neq_0; try typeclasses eauto; [exact Fx|apply generic_format_opp; exact Fy|lra].
Qed.

Lemma small_products K : 0 <= K -> 0 <= unit_error * K /\ unit_error * (unit_error * K) <= unit_error * K / 1000000 /\ 0 <= tiny * K <= unit_error * K / 1000000 /\ tiny * tiny <= tiny / 1000000 /\ unit_error * tiny <= tiny / 1000000 /\ 0 <= unit_error * (unit_error * K) /\ 0 < unit_error <= / 1000000 /\ 0 < tiny <= / 1000000000.
Proof.
  intros H. pose proof unit_pos. pose proof tiny_pos. pose proof unit_value as V. assert (U : unit_error <= / 1000000) by (rewrite V; apply Rinv_le; lra).
  assert (T : tiny <= unit_error * / 1000000) by (rewrite V; eapply Rle_trans; [apply tiny_le|]; rewrite <- Rinv_mult; apply Rinv_le; [lra|]; rewrite pow_IZR; rewrite <- mult_IZR; apply IZR_le; vm_compute; discriminate).
  assert (P : 0 <= unit_error * K) by (apply Rmult_le_pos; lra). split; [exact P|]. split; [|split; [split|split; [|split; [|split; [|split]]]]].
  - rewrite (Rmult_comm unit_error (unit_error * K)). unfold Rdiv. apply Rmult_le_compat_l; [exact P|exact U].
  - apply Rmult_le_pos; lra.
  - replace (unit_error * K / 1000000) with (unit_error * / 1000000 * K) by (unfold Rdiv; ring). apply Rmult_le_compat_r; [exact H|exact T].
  - unfold Rdiv. apply Rmult_le_compat_l; [lra|]. eapply Rle_trans; [exact T|]. assert (unit_error * / 1000000 <= 1 * / 1000000) by (apply Rmult_le_compat_r; lra). lra.
  - unfold Rdiv. rewrite Rmult_comm. apply Rmult_le_compat_l; [lra|exact U].
  - apply Rmult_le_pos; [lra|exact P].
  - split; [lra|exact U].
  - split; [lra|]. eapply Rle_trans; [exact T|]. rewrite V. rewrite <- Rinv_mult. apply Rinv_le; lra.
Qed.

(** ** Normalised columns *)
Lemma normal_trip lo hi x K : F32 lo -> F32 hi -> - K <= lo -> lo <= x <= hi -> hi <= K -> lo < hi ->
  let D := rnd (hi - lo) in let a := rnd (x - lo) in let w := rnd (a / D) in let p := rnd (w * D) in let y := rnd (p + lo) in
  0 < D /\ 0 <= a <= D /\ 0 <= a / D <= 1 /\ 0 <= w <= 1 /\ 0 <= w * D <= D /\ 0 <= p <= D /\ D <= 3 * K + tiny /\ Rabs (p + lo) <= 2 * K + tiny /\ Rabs (y - x) <= 8 * unit_error * K + 4 * tiny.
Proof.
  intros Fl Fh Hl Hx Hh L D a w p y.
  assert (P : 0 < D) by (apply distinct_floats; assumption).
  assert (A : 0 <= a <= D) by (split; [apply rnd_ge0; lra|apply rnd_le; lra]).
  assert (Q : 0 <= a / D <= 1).
  { split; [apply Rmult_le_pos; [lra|left; now apply Rinv_0_lt_compat]|]. apply (Rmult_le_reg_r D); [exact P|]. unfold Rdiv. rewrite Rmult_assoc, Rinv_l by lra. lra. }
  assert (W : 0 <= w <= 1) by (split; [apply rnd_ge0; lra|apply rnd_le_F; [apply F32_1|lra]]).
  assert (M : 0 <= w * D <= D) by (split; [apply Rmult_le_pos; lra|rewrite <- (Rmult_1_l D) at 2; apply Rmult_le_compat_r; lra]).
  assert (Pp : 0 <= p <= D) by (split; [apply rnd_ge0; lra|apply rnd_le_F; [apply F32_rnd|lra]]).
  assert (K0 : 0 <= K) by lra. destruct (small_products K K0) as (U1 & U2 & U3 & U4 & U5 & U6 & U7 & U8).
  pose proof (close_below (hi - lo) (2 * K) ltac:(rewrite Rabs_pos_eq; lra)) as C1. fold D in C1.
  pose proof (close_below (x - lo) (2 * K) ltac:(rewrite Rabs_pos_eq; lra)) as C2. fold a in C2.
  pose proof (close_to (a / D)) as C3. fold w in C3. rewrite (Rabs_pos_eq (a / D)) in C3 by lra.
  pose proof (close_below (w * D) D ltac:(rewrite Rabs_pos_eq; lra)) as C4. fold p in C4.
  assert (B1 : D <= 2 * K + 2 * (unit_error * K) + tiny) by lra.
  assert (B2 : unit_error * D <= 2 * (unit_error * K) + 2 * (unit_error * (unit_error * K)) + unit_error * tiny) by (apply Rle_trans with (unit_error * (2 * K + 2 * (unit_error * K) + tiny)); [apply Rmult_le_compat_l; lra|lra]).
  assert (B3 : tiny * D <= 2 * (tiny * K) + 2 * (unit_error * (tiny * K)) + tiny * tiny) by (apply Rle_trans with (tiny * (2 * K + 2 * (unit_error * K) + tiny)); [apply Rmult_le_compat_l; lra|lra]).
  assert (B4 : unit_error * (tiny * K) <= tiny * K) by (rewrite <- (Rmult_1_l (tiny * K)) at 2; apply Rmult_le_compat_r; lra).
  assert (C5 : - (unit_error * D + tiny * D) <= w * D - a <= unit_error * D + tiny * D).
  { assert (E : w * D - a = (w - a / D) * D) by (field; lra). rewrite E. assert (unit_error * (a / D) <= unit_error) by (rewrite <- (Rmult_1_r unit_error) at 2; apply Rmult_le_compat_l; lra). split.
    - apply Rle_trans with ((- (unit_error + tiny)) * D); [lra|]. apply Rmult_le_compat_r; lra.
    - apply Rle_trans with ((unit_error + tiny) * D); [|lra]. apply Rmult_le_compat_r; lra. }
  assert (S : Rabs (p + lo) <= K + 2 * (unit_error * K) + tiny) by (apply Rabs_le; lra).
  pose proof (close_below (p + lo) _ S) as C6. fold y in C6.
  assert (B5 : unit_error * (K + 2 * (unit_error * K) + tiny) = unit_error * K + 2 * (unit_error * (unit_error * K)) + unit_error * tiny) by ring.
  split; [exact P|]. split; [exact A|]. split; [exact Q|]. split; [exact W|]. split; [exact M|]. split; [exact Pp|].
  assert (U9 : unit_error * K <= K / 1000000) by (unfold Rdiv; rewrite Rmult_comm; apply Rmult_le_compat_l; lra).
  split; [lra|]. split; [lra|]. clearbody D a w p y. clear - C1 C2 C4 C5 C6 B1 B2 B3 B4 B5 U1 U2 U3 U4 U5 U6 U7 U8. apply Rabs_le.
  assert (E : unit_error * (2 * K) = 2 * (unit_error * K)) by ring. split; lra.
Qed.

(** ** Standardised columns *)
Lemma standard_trip lo hi mu s x K : F32 lo -> F32 hi -> 1 <= K -> Rabs lo <= K -> Rabs hi <= K -> Rabs mu <= K -> Rabs x <= K -> 1 <= hi - lo -> 1 <= s ->
  let b := rnd (x - mu) in let v := rnd (b / s) in let D := rnd (hi - lo) in let a := rnd (v - lo) in let w := rnd (a / D) in let p := rnd (w * D) in
  let q := rnd (p + lo) in let e := rnd (q * s) in let y := rnd (e + mu) in
  1 <= D <= 3 * K /\ Rabs (b / s) <= 3 * K /\ Rabs (v - lo) <= 5 * K /\ Rabs (a / D) <= 6 * K /\ Rabs (w * D) <= 7 * K /\ Rabs (p + lo) <= 9 * K /\ Rabs (q * s) <= 3 * (K * s) /\ Rabs (e + mu) <= 5 * (K * s) /\
  Rabs (y - x) <= 48 * unit_error * (K * s).
Proof.
  intros Fl Fh K1 Hl Hh Hm Hx R1 S1 b v D a w p q e y.
  assert (K0 : 0 <= K) by lra. destruct (small_products K K0) as (U1 & U2 & U3 & U4 & U5 & U6 & U7 & U8).
  assert (B0 : K <= K * s) by (rewrite <- (Rmult_1_r K) at 1; apply Rmult_le_compat_l; lra).
  assert (UB : unit_error * K <= unit_error * (K * s)) by (apply Rmult_le_compat_l; lra).
  assert (TK : tiny <= tiny * K) by (rewrite <- (Rmult_1_r tiny) at 1; apply Rmult_le_compat_l; lra).
  assert (UK : unit_error * K <= K / 1000000) by (unfold Rdiv; rewrite Rmult_comm; apply Rmult_le_compat_l; lra).
  assert (TS : 0 <= tiny * s <= unit_error * (K * s) / 1000000).
  { split; [apply Rmult_le_pos; lra|]. apply Rle_trans with (tiny * K * s); [apply Rmult_le_compat_r; lra|]. replace (unit_error * (K * s) / 1000000) with (unit_error * K / 1000000 * s) by (unfold Rdiv; ring). apply Rmult_le_compat_r; lra. }
  apply Rabs_le_inv in Hl. apply Rabs_le_inv in Hh. apply Rabs_le_inv in Hm. apply Rabs_le_inv in Hx.
  pose proof (close_below (x - mu) (2 * K) ltac:(apply Rabs_le; lra)) as C1. fold b in C1. replace (unit_error * (2 * K)) with (2 * (unit_error * K)) in C1 by ring.
  assert (Bb : Rabs b <= 3 * K) by (apply Rabs_le; lra).
  assert (Bv : Rabs (b / s) <= 3 * K).
  { unfold Rdiv. rewrite Rabs_mult, (Rabs_pos_eq (/ s)) by (left; apply Rinv_0_lt_compat; lra). assert (/ s <= 1) by (rewrite <- Rinv_1; apply Rinv_le; lra). assert (0 <= Rabs b) by apply Rabs_pos. apply Rle_trans with (Rabs b * 1); [apply Rmult_le_compat_l; lra|lra]. }
  pose proof (close_to (b / s)) as C2. fold v in C2.
  assert (C2s : - (3 * (unit_error * K) + tiny * s) <= v * s - b <= 3 * (unit_error * K) + tiny * s).
  { assert (E : v * s - b = (v - b / s) * s) by (field; lra). rewrite E. assert (G : (unit_error * Rabs (b / s) + tiny) * s <= 3 * (unit_error * K) + tiny * s).
    { rewrite Rmult_plus_distr_r. apply Rplus_le_compat_r. unfold Rdiv. rewrite Rabs_mult, (Rabs_pos_eq (/ s)) by (left; apply Rinv_0_lt_compat; lra). replace (unit_error * (Rabs b * / s) * s) with (unit_error * Rabs b) by (field; lra).
      replace (3 * (unit_error * K)) with (unit_error * (3 * K)) by ring. apply Rmult_le_compat_l; lra. }
    split.
    - apply Rle_trans with (- (unit_error * Rabs (b / s) + tiny) * s); [lra|]. apply Rmult_le_compat_r; lra.
    - eapply Rle_trans; [|exact G]. apply Rmult_le_compat_r; lra. }
  pose proof (close_below (b / s) (3 * K) Bv) as C2'. fold v in C2'. replace (unit_error * (3 * K)) with (3 * (unit_error * K)) in C2' by ring. pose proof (Rabs_le_inv _ _ Bv) as Bv'.
  assert (Bl : Rabs (v - lo) <= 5 * K) by (apply Rabs_le; lra).
  pose proof (close_below (v - lo) (5 * K) Bl) as C3. fold a in C3. replace (unit_error * (5 * K)) with (5 * (unit_error * K)) in C3 by ring. pose proof (Rabs_le_inv _ _ Bl) as Bl'.
  assert (Ba : Rabs a <= 6 * K) by (apply Rabs_le; lra).
  pose proof (close_below (hi - lo) (2 * K) ltac:(apply Rabs_le; lra)) as C4. fold D in C4. replace (unit_error * (2 * K)) with (2 * (unit_error * K)) in C4 by ring.
  assert (BD : 1 <= D <= 3 * K) by (split; [apply rnd_ge_F; [apply F32_1|lra]|lra]).
  assert (Bw : Rabs (a / D) <= 6 * K).
  { unfold Rdiv. rewrite Rabs_mult, (Rabs_pos_eq (/ D)) by (left; apply Rinv_0_lt_compat; lra). assert (/ D <= 1) by (rewrite <- Rinv_1; apply Rinv_le; lra). assert (0 <= Rabs a) by apply Rabs_pos. apply Rle_trans with (Rabs a * 1); [apply Rmult_le_compat_l; lra|lra]. }
  pose proof (close_to (a / D)) as C5. fold w in C5.
  assert (C5s : - (6 * (unit_error * K) + 3 * (tiny * K)) <= w * D - a <= 6 * (unit_error * K) + 3 * (tiny * K)).
  { assert (E : w * D - a = (w - a / D) * D) by (field; lra). rewrite E. assert (G : (unit_error * Rabs (a / D) + tiny) * D <= 6 * (unit_error * K) + 3 * (tiny * K)).
    { rewrite Rmult_plus_distr_r. apply Rplus_le_compat.
      - unfold Rdiv. rewrite Rabs_mult, (Rabs_pos_eq (/ D)) by (left; apply Rinv_0_lt_compat; lra). replace (unit_error * (Rabs a * / D) * D) with (unit_error * Rabs a) by (field; lra).
        replace (6 * (unit_error * K)) with (unit_error * (6 * K)) by ring. apply Rmult_le_compat_l; lra.
      - replace (3 * (tiny * K)) with (tiny * (3 * K)) by ring. apply Rmult_le_compat_l; lra. }
    split.
    - apply Rle_trans with (- (unit_error * Rabs (a / D) + tiny) * D); [lra|]. apply Rmult_le_compat_r; lra.
    - eapply Rle_trans; [|exact G]. apply Rmult_le_compat_r; lra. }
  pose proof (Rabs_le_inv _ _ Ba) as Ba'.
  assert (BwD : Rabs (w * D) <= 7 * K) by (apply Rabs_le; lra). pose proof (Rabs_le_inv _ _ BwD) as BwD'.
  pose proof (close_below (w * D) (7 * K) BwD) as C6. fold p in C6. replace (unit_error * (7 * K)) with (7 * (unit_error * K)) in C6 by ring.
  assert (Bp : Rabs (p + lo) <= 9 * K) by (apply Rabs_le; lra).
  pose proof (close_below (p + lo) (9 * K) Bp) as C7. fold q in C7. replace (unit_error * (9 * K)) with (9 * (unit_error * K)) in C7 by ring.
  assert (Cq : - (28 * (unit_error * K)) <= q - v <= 28 * (unit_error * K)) by lra.
  assert (Cs : - (28 * (unit_error * (K * s))) <= q * s - v * s <= 28 * (unit_error * (K * s))).
  { replace (q * s - v * s) with ((q - v) * s) by ring. replace (28 * (unit_error * (K * s))) with (28 * (unit_error * K) * s) by ring. split; [replace (- (28 * (unit_error * K) * s)) with (- (28 * (unit_error * K)) * s) by ring|]; apply Rmult_le_compat_r; lra. }
  assert (UB2 : unit_error * (K * s) <= K * s / 1000000) by (unfold Rdiv; rewrite Rmult_comm; apply Rmult_le_compat_l; lra).
  assert (Bs : Rabs (q * s) <= 3 * (K * s)) by (apply Rabs_le; lra).
  pose proof (close_below (q * s) _ Bs) as C8. fold e in C8. replace (unit_error * (3 * (K * s))) with (3 * (unit_error * (K * s))) in C8 by ring. pose proof (Rabs_le_inv _ _ Bs) as Bs'.
  assert (Be : Rabs (e + mu) <= 5 * (K * s)) by (apply Rabs_le; lra).
  pose proof (close_below (e + mu) _ Be) as C9. fold y in C9. replace (unit_error * (5 * (K * s))) with (5 * (unit_error * (K * s))) in C9 by ring.
  split; [lra|]. split; [exact Bv|]. split; [exact Bl|]. split; [exact Bw|]. split; [exact BwD|]. split; [exact Bp|]. split; [exact Bs|]. split; [exact Be|].
  apply Rabs_le. replace (48 * unit_error * (K * s)) with (48 * (unit_error * (K * s))) by ring. clearbody b v D a w p q e y. clear - C1 C2s Cs C8 C9 TS UB TK U3 U1 U8. split; lra.
Qed.

(** ** Numbers that are lost *)
Lemma next_float f g : F32 f -> F32 g -> 0 < f < g -> f * / 2 ^ 24 <= g - f.
Proof.
  intros Ff Fg L. assert (S : f + ulp radix2 (SpecFloat.fexp 24 128) f <= g).
  { rewrite <- succ_eq_pos by lra. apply succ_le_lt; try assumption; try typeclasses eauto. lra. }
  assert (G : f * / 2 ^ 24 <= ulp radix2 (SpecFloat.fexp 24 128) f).
  { change (SpecFloat.fexp 24 128) with (FLT_exp (-149) 24). assert (P24 : Prec_gt_0 24) by reflexivity. pose proof (ulp_FLT_gt radix2 (-149) 24 f) as U. rewrite Rabs_pos_eq in U by lra. replace (/ 2 ^ 24) with (bpow radix2 (- (24))) by (cbn; f_equal; lra). lra. }
  lra.
Qed.
Lemma swallowed lo v : F32 lo -> 0 < lo -> Rabs v * 2 ^ 27 <= lo -> rnd (v - lo) = - lo.
Proof.
  intros Fl P B. assert (A : Rabs v <= lo / 134217728) by lra. apply Rabs_le_inv in A.
  assert (N : Rabs (rnd (v - lo) - (v - lo)) <= Rabs (- lo - (v - lo))).
  { destruct (round_N_pt radix2 (SpecFloat.fexp 24 128) (fun z => negb (Z.even z)) (v - lo)) as [_ H]. apply H. apply generic_format_opp. exact Fl. }
  replace (- lo - (v - lo)) with (- v) in N by ring. rewrite Rabs_Ropp in N. assert (N' : Rabs (rnd (v - lo) - (v - lo)) <= lo / 134217728) by (eapply Rle_trans; [exact N|]; lra). apply Rabs_le_inv in N'.
  set (g := - rnd (v - lo)). assert (Fg : F32 g) by (apply generic_format_opp; apply F32_rnd). assert (G : lo - lo / 67108864 <= g <= lo + lo / 67108864) by (unfold g; lra).
  assert (g = lo); [|unfold g in *; lra]. destruct (Rtotal_order g lo) as [L|[E|L]]; [|exact E|].
  - pose proof (next_float g lo Fg Fl ltac:(lra)) as X. lra.
  - pose proof (next_float lo g Fl Fg ltac:(lra)) as X. lra.
Qed.

(** ** In [float] *)
Lemma p127_large K : K <= 2 ^ 120 -> 9 * K <= 2 ^ 127.
Proof. intros H. assert (0 < 2 ^ 120) by (apply pow_lt; lra). assert (2 ^ 127 = 128 * 2 ^ 120) by (change 127%nat with (7 + 120)%nat; rewrite pow_add; lra). lra. Qed.

Lemma normal_float lo hi x K : is_number lo -> is_number hi -> is_number x -> - K <= number lo -> number lo <= number x <= number hi -> number hi <= K -> number lo < number hi -> 1 <= K <= 2 ^ 120 \/ (0 <= K <= 1) ->
  is_number (denormalise float32 lo hi (normalise float32 lo hi x)) /\ Rabs (number (denormalise float32 lo hi (normalise float32 lo hi x)) - number x) <= 8 * unit_error * K + 4 * tiny.
Proof.
  intros Nl Nh Nx Hl Hx Hh L HK. pose proof (normal_trip _ _ (number x) K (number_format lo) (number_format hi) Hl Hx Hh L) as (P & A & Q & W & M & Pp & BD & BS & E).
  assert (Z : 9 * K + 1 <= 2 ^ 127).
  { assert (1 <= 2 ^ 120) by (apply pow_R1_Rle; lra). assert (2 ^ 127 = 128 * 2 ^ 120) by (change 127%nat with (7 + 120)%nat; rewrite pow_add; lra). lra. }
  assert (T : tiny <= 1) by (destruct (small_products 0 (Rle_refl 0)) as (_ & _ & _ & _ & _ & _ & _ & U); lra).
  assert (K0 : 0 <= K) by lra. clear HK.
  unfold normalise, denormalise. cbn [float32 a_sub a_div a_mul a_add num].
  destruct (sub_is x lo Nx Nl) as [N1 V1]; [rewrite Rabs_pos_eq by lra; lra|].
  destruct (sub_is hi lo Nh Nl) as [N2 V2]; [rewrite Rabs_pos_eq by lra; lra|].
  destruct (div_is (fsub x lo) (fsub hi lo) N1) as [N3 V3]; [rewrite V2; lra|rewrite V1, V2, Rabs_pos_eq by lra; lra|]. rewrite V1, V2 in V3.
  destruct (mul_is (fdiv (fsub x lo) (fsub hi lo)) (fsub hi lo) N3 N2) as [N4 V4]; [rewrite V3, V2, Rabs_pos_eq by lra; lra|]. rewrite V3, V2 in V4.
  destruct (add_is (fmul (fdiv (fsub x lo) (fsub hi lo)) (fsub hi lo)) lo N4 Nl) as [N5 V5]; [rewrite V4; lra|]. rewrite V4 in V5. split; [exact N5|]. rewrite V5. exact E.
Qed.

Lemma standard_float lo hi mu s x K : is_number lo -> is_number hi -> is_number mu -> is_number s -> is_number x -> 1 <= K -> Rabs (number lo) <= K -> Rabs (number hi) <= K -> Rabs (number mu) <= K -> Rabs (number x) <= K ->
  1 <= number hi - number lo -> 1 <= number s -> K * number s <= 2 ^ 120 ->
  let y := unstandardise float32 mu s (denormalise float32 lo hi (normalise float32 lo hi (standardise float32 mu s x))) in
  is_number y /\ Rabs (number y - number x) <= 48 * unit_error * (K * number s).
Proof.
  intros Nl Nh Nm Ns Nx K1 Hl Hh Hm Hx R1 S1 B. pose proof (standard_trip _ _ (number mu) (number s) (number x) K (number_format lo) (number_format hi) K1 Hl Hh Hm Hx R1 S1) as (BD & Bv & Bl & Bw & BwD & Bp & Bs & Be & E).
  assert (B0 : K <= K * number s) by (rewrite <- (Rmult_1_r K) at 1; apply Rmult_le_compat_l; lra).
  pose proof (p127_large _ B) as Z. assert (Z' : 9 * K <= 2 ^ 127) by lra.
  apply Rabs_le_inv in Hl. apply Rabs_le_inv in Hh. apply Rabs_le_inv in Hm. apply Rabs_le_inv in Hx.
  unfold unstandardise, standardise, normalise, denormalise. cbn [float32 a_sub a_div a_mul a_add num]. cbv zeta.
  destruct (sub_is x mu Nx Nm) as [N1 V1]; [apply Rabs_le; lra|].
  destruct (div_is (fsub x mu) s N1) as [N2 V2]; [lra|rewrite V1; lra|]. rewrite V1 in V2.
  destruct (sub_is (fdiv (fsub x mu) s) lo N2 Nl) as [N3 V3]; [rewrite V2; lra|]. rewrite V2 in V3.
  destruct (sub_is hi lo Nh Nl) as [N4 V4]; [apply Rabs_le; lra|].
  destruct (div_is (fsub (fdiv (fsub x mu) s) lo) (fsub hi lo) N3) as [N5 V5]; [rewrite V4; lra|rewrite V3, V4; lra|]. rewrite V3, V4 in V5.
  destruct (mul_is (fdiv (fsub (fdiv (fsub x mu) s) lo) (fsub hi lo)) (fsub hi lo) N5 N4) as [N6 V6]; [rewrite V5, V4; lra|]. rewrite V5, V4 in V6.
  destruct (add_is (fmul (fdiv (fsub (fdiv (fsub x mu) s) lo) (fsub hi lo)) (fsub hi lo)) lo N6 Nl) as [N7 V7]; [rewrite V6; lra|]. rewrite V6 in V7.
  destruct (mul_is (fadd (fmul (fdiv (fsub (fdiv (fsub x mu) s) lo) (fsub hi lo)) (fsub hi lo)) lo) s N7 Ns) as [N8 V8]; [rewrite V7; lra|]. rewrite V7 in V8.
  destruct (add_is (fmul (fadd (fmul (fdiv (fsub (fdiv (fsub x mu) s) lo) (fsub hi lo)) (fsub hi lo)) lo) s) mu N8 Nm) as [N9 V9]; [rewrite V8; lra|]. rewrite V8 in V9.
  split; [exact N9|]. rewrite V9. exact E.
Qed.

(** ** Least and greatest number of a column *)
Lemma dlt_is x y : finite64 x = true -> finite64 y = true -> (dlt x y = true <-> val64 x < val64 y).
Proof.
  intros Fx Fy. unfold dlt, b64_compare. rewrite (Bcompare_correct 53 1024 x y Fx Fy). destruct (Rcompare_spec (val64 x) (val64 y)); split; intros H'; try discriminate; try reflexivity; lra.
Qed.
Lemma max_is : finite64 double_max = true /\ bpow radix2 128 <= val64 double_max.
Proof.
  split; [reflexivity|]. unfold double_max. change (val64 (B754_finite 53 1024 false 9007199254740991 971 eq_refl)) with (IZR 9007199254740991 * bpow radix2 971).
  apply Rle_trans with (1 * bpow radix2 971); [rewrite Rmult_1_l; apply bpow_le; lia|]. apply Rmult_le_compat_r; [apply bpow_ge_0|]. apply IZR_le. lia.
Qed.
Lemma lowest_is : finite64 double_lowest = true /\ val64 double_lowest <= - bpow radix2 128.
Proof. destruct max_is as [F V]. unfold double_lowest, b64_opp. split; [rewrite is_finite_Bopp; exact F|]. rewrite B2R_Bopp. lra. Qed.

Definition least_of (l : list F) (m : D) : Prop := finite64 m = true /\ (exists x, In x l /\ val64 m = number x) /\ forall x, In x l -> val64 m <= number x.
Definition greatest_of (l : list F) (m : D) : Prop := finite64 m = true /\ (exists x, In x l /\ val64 m = number x) /\ forall x, In x l -> number x <= val64 m.
Definition tallied (l : list F) (s : tally) : Prop :=
  match l with [] => t_min s = double_max /\ t_max s = double_lowest | _ => least_of l (t_min s) /\ greatest_of l (t_max s) end.
Lemma below_max (x : F) : - bpow radix2 128 < number x < bpow radix2 128.
Proof. pose proof (val_lt_max x) as H. apply Rabs_lt_inv in H. exact H. Qed.
Lemma tallied_value l s x : Forall is_number l -> is_number x -> tallied l s -> tallied (l ++ [x]) (tally_value s x).
Proof.
  intros Fl Nx H. destruct (widen_is x Nx) as [Fw Vw]. pose proof (below_max x) as Bx.
  assert (G : least_of (l ++ [x]) (dmin (t_min s) (widen x)) /\ greatest_of (l ++ [x]) (dmax (t_max s) (widen x))).
  { destruct l as [|z l].
    - destruct H as [-> ->]. destruct max_is as [F1 V1]. destruct lowest_is as [F2 V2]. unfold dmin, dmax.
      assert (dlt (widen x) double_max = true) as -> by (apply dlt_is; [assumption|assumption|lra]). assert (dlt double_lowest (widen x) = true) as -> by (apply dlt_is; [assumption|assumption|lra]).
      split; (split; [exact Fw|]); (split; [exists x; split; [now left|exact Vw]|]); intros y [<-|[]]; lra.
    - destruct H as [(F1 & (y & I & V) & H1) (F2 & (y' & I' & V') & H2)]. unfold dmin, dmax. split.
      + destruct (dlt (widen x) (t_min s)) eqn:E.
        * apply dlt_is in E; [|assumption|assumption]. split; [exact Fw|]. split; [exists x; split; [apply in_or_app; right; now left|exact Vw]|]. intros a Ia. apply in_app_or in Ia as [Ia|[<-|[]]]; [pose proof (H1 a Ia); lra|lra].
        * assert (Q : ~ val64 (widen x) < val64 (t_min s)) by (intros Q; apply dlt_is in Q; [congruence|assumption|assumption]). split; [exact F1|]. split; [exists y; split; [apply in_or_app; now left|exact V]|]. intros a Ia. apply in_app_or in Ia as [Ia|[<-|[]]]; [exact (H1 a Ia)|lra].
      + destruct (dlt (t_max s) (widen x)) eqn:E.
        * apply dlt_is in E; [|assumption|assumption]. split; [exact Fw|]. split; [exists x; split; [apply in_or_app; right; now left|exact Vw]|]. intros a Ia. apply in_app_or in Ia as [Ia|[<-|[]]]; [pose proof (H2 a Ia); lra|lra].
        * assert (Q : ~ val64 (t_max s) < val64 (widen x)) by (intros Q; apply dlt_is in Q; [congruence|assumption|assumption]). split; [exact F2|]. split; [exists y'; split; [apply in_or_app; now left|exact V']|]. intros a Ia. apply in_app_or in Ia as [Ia|[<-|[]]]; [exact (H2 a Ia)|lra]. }
  destruct l; exact G.
Qed.
Lemma tallied_values xs : forall l s, Forall is_number l -> Forall is_number xs -> tallied l s -> tallied (l ++ xs) (fold_left tally_value xs s).
Proof.
  induction xs as [|x xs IH]; intros l s Fl Fx H; [rewrite app_nil_r; exact H|]. inversion Fx as [|? ? Nx Fxs]; subst. cbn [fold_left]. replace (l ++ x :: xs) with ((l ++ [x]) ++ xs) by now rewrite <- app_assoc.
  apply IH; [apply Forall_app; split; [exact Fl|now constructor]|exact Fxs|now apply tallied_value].
Qed.
Lemma tallied_tensors ts : forall l s, Forall is_number l -> Forall (Forall is_number) ts -> tallied l s -> tallied (l ++ concat ts) (fold_left tally_tensor ts s).
Proof.
  induction ts as [|t ts IH]; intros l s Fl Ft H; [cbn; rewrite app_nil_r; exact H|]. inversion Ft as [|? ? Nt Fts]; subst. cbn [fold_left concat]. rewrite app_assoc. apply IH; [apply Forall_app; now split|exact Fts|].
  pose proof (tallied_values t l s Fl Nt H) as G. unfold tally_tensor. destruct (l ++ t); exact G.
Qed.
Lemma column_range ts : Forall (Forall is_number) ts -> concat ts <> [] ->
  let m := column_metadata ts in is_number (min_value float32 m) /\ is_number (max_value float32 m) /\
  (exists x, In x (concat ts) /\ number (min_value float32 m) = number x) /\ (exists x, In x (concat ts) /\ number (max_value float32 m) = number x) /\
  forall x, In x (concat ts) -> number (min_value float32 m) <= number x <= number (max_value float32 m).
Proof.
  intros Ft N. pose proof (tallied_tensors ts [] tally0 (Forall_nil _) Ft (conj eq_refl eq_refl)) as H. rewrite app_nil_l in H. cbv zeta. unfold column_metadata. cbn [min_value max_value].
  destruct (concat ts) as [|z l]; [contradiction|]. destruct H as [(F1 & (y & I & V) & H1) (F2 & (y' & I' & V') & H2)].
  assert (R1 : rnd (number y) = number y) by (apply rnd_id; apply number_format). assert (R2 : rnd (number y') = number y') by (apply rnd_id; apply number_format).
  destruct (narrow_is _ F1) as [N1 W1]; [rewrite V, R1; apply val_lt_max|]. destruct (narrow_is _ F2) as [N2 W2]; [rewrite V', R2; apply val_lt_max|]. rewrite V, R1 in W1. rewrite V', R2 in W2.
  split; [exact N1|]. split; [exact N2|]. split; [exists y; split; [exact I|exact W1]|]. split; [exists y'; split; [exact I'|exact W2]|].
  intros x Ix. rewrite W1, W2. pose proof (H1 x Ix). pose proof (H2 x Ix). lra.
Qed.
