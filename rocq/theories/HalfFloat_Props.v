(** C02, C03 - 16-bit float storage. *)
From Coq Require Import NArith ZArith Lia.
From Verif Require Import Float32_Spec HalfFloat_Model HalfFloat_Proofs.
Open Scope N_scope.

(** C02: every 16-bit code that does not stand for NaN decodes to a float that
    encodes to the same code. *)
Theorem half_codes_stable :
  forall h, h < 2^16 -> ~ f32_is_nan (halfToFloat h) -> floatToHalf (halfToFloat h) = h.
Proof.
  intros h Hh Hn. destruct (finite_dec (halfToFloat h)) as [H|[H|H]].
  - exact (half_roundtrip_finite h Hh H).
  - exact (False_ind _ (Hn H)).
  - exact (half_roundtrip_inf h Hh H).
Qed.
Print Assumptions half_codes_stable.

(** C02: encoding always gives a 16-bit code; NaN stays NaN; infinities are exact;
    finite numbers stay finite. *)
Theorem half_classes_kept :
  forall b, b < 2^32 ->
    floatToHalf b < 2^16 /\
    (f32_is_nan b -> f32_is_nan (halfToFloat (floatToHalf b))) /\
    (f32_is_inf b -> halfToFloat (floatToHalf b) = b) /\
    (f32_finite b -> f32_finite (halfToFloat (floatToHalf b))).
Proof.
  exact (fun b Hb => conj (half_encode_lt b Hb)
    (conj (half_nan_stays b) (conj (half_inf_exact b Hb) (stored_finite b Hb)))).
Qed.
Print Assumptions half_classes_kept.

(** C02: storing a second time changes nothing (any float that is not NaN). *)
Theorem half_store_idempotent :
  forall b, b < 2^32 -> ~ f32_is_nan b ->
    halfToFloat (floatToHalf (halfToFloat (floatToHalf b))) = halfToFloat (floatToHalf b).
Proof.
  intros b Hb Hn. destruct (half_idempotent b Hb) as [E|E].
  - exact (f_equal halfToFloat E).
  - exact (False_ind _ (Hn E)).
Qed.
Print Assumptions half_store_idempotent.

(** Finding: the sign of the negative NaN is lost by storing it twice. *)
Theorem half_negative_nan_stable_refuted :
  exists b, b < 2^32 /\ f32_is_nan b /\
    f32_sign (halfToFloat (floatToHalf (halfToFloat (floatToHalf b)))) <> f32_sign (halfToFloat (floatToHalf b)).
Proof. exists 0xFFC00000. vm_compute. repeat split; congruence. Qed.
Print Assumptions half_negative_nan_stable_refuted.

(** C03: same sign, magnitude never larger, relative error below 2^-7 for normal
    numbers and absolute error below 2^16 units of 2^-149 for subnormal ones. *)
Theorem half_error_bound :
  forall b, b < 2^32 -> f32_finite b ->
    let s := halfToFloat (floatToHalf b) in
    f32_sign s = f32_sign b /\
    f32_mag s <= f32_mag b /\
    (f32_exp b <> 0 -> (f32_mag b - f32_mag s) * 2^7 < f32_mag b) /\
    (f32_exp b = 0 -> f32_mag b - f32_mag s < 2^16).
Proof.
  exact (fun b Hb F => conj (half_sign b Hb F) (conj (half_mag_le b Hb F)
    (conj (half_err_normal b Hb F) (half_err_sub b Hb)))).
Qed.
Print Assumptions half_error_bound.

(** C03: storing is monotone on finite floats. *)
Theorem half_store_monotone :
  forall b b', b < 2^32 -> b' < 2^32 -> f32_finite b -> f32_finite b' ->
    (f32_units b <= f32_units b')%Z ->
    (f32_units (halfToFloat (floatToHalf b)) <= f32_units (halfToFloat (floatToHalf b')))%Z.
Proof. exact half_monotone. Qed.
Print Assumptions half_store_monotone.

(** 1.2345678 = 0x3F9E0651 loses its low bits; -0.1 <= 1.2345678. *)
Example half_ex :
  f32_finite 0x3F9E0651 /\ floatToHalf 0x3F9E0651 = 0x3F9E /\
  (f32_units 0xBDCCCCCD <= f32_units 0x3F9E0651)%Z /\ f32_finite 0xBDCCCCCD /\
  halfToFloat (floatToHalf 0xBDCCCCCD) = 0xBDCC0000 /\ ~ f32_is_nan (halfToFloat 0x3F9E).
Proof. vm_compute. repeat split; try congruence. intros [H _]; discriminate. Qed.
