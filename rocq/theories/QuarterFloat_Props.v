(** C04, C05, C06 - 8-bit float storage. The theorems cover every bias from -111
    to 126 (for these every code has a float32 exponent), which includes 4..15, the
    biases [materializeTensor] and [BinaryDatasetReader] use, and bias 0, which the
    code treats as 1. Magnitudes are in units of 2^-149. *)
From Coq Require Import NArith ZArith List Bool.
From Verif Require Import Float32_Spec QuarterFloat_Model QuarterFloat_Proofs QuarterFloat_Proofs2 QuarterFloat_Proofs3.
Open Scope N_scope.

(** C04: exactly which 8-bit codes survive decoding and encoding. The others are
    121-127 and 249-254 (which no encoder output uses) and code 128 from bias 12 on. *)
Theorem quarter_codes_stable_iff :
  forall bias q, (-111 <= bias <= 126)%Z -> (0 <= q < 256)%Z ->
    (floatToQuarter (quarterToFloat q bias) bias = q <->
     ~ (121 <= q <= 127)%Z /\ ~ (249 <= q <= 254)%Z /\ ~ (q = 128 /\ 12 <= bias)%Z).
Proof. exact codes_stable_plain. Qed.
Print Assumptions quarter_codes_stable_iff.

(** C04: storing a stored value again changes nothing, for every finite float and every
    bias below 12. *)
Theorem quarter_store_idempotent :
  forall b bias, (-111 <= bias < 12)%Z -> b < 2^32 -> f32_finite b ->
    quarter_store (quarter_store b bias) bias = quarter_store b bias.
Proof. exact store_idempotent_plain. Qed.
Print Assumptions quarter_store_idempotent.

(** Finding: from bias 12 on, storing twice is not the same as storing once. *)
Theorem quarter_store_idempotent_bias12_refuted :
  exists b, b < 2^32 /\ f32_finite b /\
    quarter_store (quarter_store b 12) 12 <> quarter_store b 12.
Proof. exists 0xB8000000. vm_compute. repeat split; congruence. Qed.
Print Assumptions quarter_store_idempotent_bias12_refuted.

(** C05 refuted: a negative number (-0.01) stored in 8 bits is read back positive. *)
Theorem quarter_sign_preserved_refuted :
  exists b, b < 2^32 /\ f32_finite b /\ (f32_units b < 0)%Z /\ (0 < f32_units (quarter_store b 4))%Z.
Proof. exists 0xBC23D70A. vm_compute. repeat split; congruence. Qed.
Print Assumptions quarter_sign_preserved_refuted.

(** C05: what holds. Non-negative stays non-negative; negative numbers of magnitude
    at least 17/16 * 2^-bias stay negative; every smaller one becomes a positive number
    (so the boundary is exact). [2^149] units are 1.0. *)
(** Partial, C05: the sign is lost for the values named here. *)
Theorem quarter_sign_partial :
  forall b bias, (-111 <= bias <= 126)%Z -> b < 2^32 -> f32_finite b ->
    let adj := Z.to_N (127 - effective_bias bias) in
    (f32_sign b = false -> f32_sign (quarter_store b bias) = false) /\
    (f32_sign b = true -> 17 * 2^19 * 2^(adj - 1) <= f32_mag b -> f32_sign (quarter_store b bias) = true) /\
    (f32_sign b = true -> f32_mag b < 17 * 2^19 * 2^(adj - 1) ->
       f32_sign (quarter_store b bias) = false /\ f32_mag (quarter_store b bias) <> 0).
Proof. exact sign_summary. Qed.
Print Assumptions quarter_sign_partial.

(** C06: numbers too large are stored as the largest value with the same sign, and
    nothing is ever stored beyond it (no wrap-around, no infinity). *)
Theorem quarter_saturates :
  forall b bias, (-111 <= bias <= 126)%Z -> b < 2^32 -> f32_finite b ->
    let adj := Z.to_N (127 - effective_bias bias) in
    let largest := 15 * 2^20 * 2^(adj + 13) in
    f32_finite (quarter_store b bias) /\
    f32_mag (quarter_store b bias) <= largest /\
    (2^23 * 2^(adj + 14) <= f32_mag b ->
       f32_sign (quarter_store b bias) = f32_sign b /\ f32_mag (quarter_store b bias) = largest).
Proof.
  exact (fun b bias Hb H F => conj (proj1 (store_bounded b bias Hb H F))
    (conj (proj2 (store_bounded b bias Hb H F)) (store_saturates b bias Hb H F))).
Qed.
Print Assumptions quarter_saturates.

(** C06: inside the range the relative error is at most 1/16 and the sign is kept. *)
Theorem quarter_error_bound :
  forall b bias, (-111 <= bias <= 126)%Z -> b < 2^32 -> f32_finite b ->
    let adj := Z.to_N (127 - effective_bias bias) in
    17 * 2^19 * 2^(adj - 1) <= f32_mag b -> f32_mag b < 2^23 * 2^(adj + 14) ->
    f32_sign (quarter_store b bias) = f32_sign b /\
    f32_finite (quarter_store b bias) /\
    (Z.abs (Z.of_N (f32_mag (quarter_store b bias)) - Z.of_N (f32_mag b)) * 16 <= Z.of_N (f32_mag b))%Z.
Proof. exact store_in_range. Qed.
Print Assumptions quarter_error_bound.

(** C06: monotone on non-negative finite floats. *)
Theorem quarter_store_monotone :
  forall b b' bias, (-111 <= bias <= 126)%Z -> b < 2^31 -> b' < 2^31 -> f32_finite b -> f32_finite b' ->
    (f32_units b <= f32_units b')%Z ->
    (f32_units (quarter_store b bias) <= f32_units (quarter_store b' bias))%Z.
Proof. exact store_monotone. Qed.
Print Assumptions quarter_store_monotone.

(** Finding: a NaN other than the two canonical patterns is stored as a number. *)
Theorem quarter_nan_stays_nan_refuted :
  exists b, b < 2^32 /\ f32_is_nan b /\ f32_finite (quarter_store b 4).
Proof. exists 0x7F800001. vm_compute. repeat split; congruence. Qed.
Print Assumptions quarter_nan_stays_nan_refuted.

(** C06: the bias chosen for a tensor fits the data whenever any candidate does, and it is
    the largest (most precise) one that does. *)
Theorem estimate_bias_best :
  forall (fits : Z -> bool) lo hi, (lo <= hi)%Z ->
    let r := estimateBias fits lo hi in
    (lo <= r <= hi)%Z /\
    (forall b, (lo <= b <= hi)%Z -> fits b = true -> fits r = true /\ (b <= r)%Z).
Proof. exact estimate_bias_spec. Qed.
Print Assumptions estimate_bias_best.

Example quarter_ex :
  f32_finite 0x40490FDB /\ quarter_store 0x40490FDB 4 = 0x40500000 /\ (* pi -> 3.25 *)
  (17 * 2^19 * 2^(123 - 1) <= f32_mag 0x40490FDB) /\ f32_mag 0x40490FDB < 2^23 * 2^(123 + 14) /\
  quarter_store 0x461C4000 4 = 0x44F00000 /\ (* 10000 -> 1920 *)
  2^23 * 2^(123 + 14) <= f32_mag 0x461C4000 /\
  estimateBias (fun b => b <=? 7)%Z 4 15 = 7%Z.
Proof. vm_compute. repeat split; congruence. Qed.
