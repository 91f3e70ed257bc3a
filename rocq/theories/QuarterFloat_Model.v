(** Model of src/types/quarter_float.hpp. A [float] is its 32-bit pattern (as a
    non-negative [Z]), [quarter] is an 8-bit code; [uint32_t] arithmetic wraps. *)
From Coq Require Import ZArith Bool.
Open Scope Z_scope.

Definition u32 (z : Z) : Z := z mod 2^32.
(** Conversion of a 32-bit pattern to [int32_t]. *)
Definition s32 (z : Z) : Z := let u := z mod 2^32 in if u <? 2^31 then u else u - 2^32.
Definition b2z (b : bool) : Z := if b then 1 else 0.
(** C++ truth value of an integer. *)
Definition nz (z : Z) : bool := negb (z =? 0).

(** src/types/quarter_float.hpp:12-18. *)
Definition Q_FLOAT_NEG_NAN : Z := 0xFFC00000.
Definition Q_FLOAT_POS_NAN : Z := 0x7FC00000.
Definition Q_FLOAT_INF : Z := 0x7F800000.
Definition Q_FLOAT_NEG_INF : Z := 0xFF800000.
Definition QUARTER_NAN : Z := 255.
Definition QUARTER_POS_INFINITY : Z := 120.
Definition QUARTER_NEG_INFINITY : Z := 248.

(** src/types/quarter_float.hpp:82 and 118: bias 0 is replaced by 1. *)
Definition effective_bias (quarter_bias : Z) : Z :=
  b2z (quarter_bias =? 0) + b2z (negb (quarter_bias =? 0)) * quarter_bias.

(** src/types/quarter_float.hpp:78-112 [floatToQuarter]. *)
Definition floatToQuarter (encoded_value quarter_bias : Z) : Z :=
  let bias := effective_bias quarter_bias in
  let sign := Z.shiftr encoded_value 31 in
  let raw_exponent := Z.shiftr (Z.land encoded_value 0x7F800000) 23 in
  let raw_mantissa := Z.shiftr (Z.land encoded_value 0x00700000) 20 in
  let extra_mantissa := Z.shiftr (Z.land encoded_value 0x000FFFFF) 19 in
  let rounded_mantissa := raw_mantissa + b2z ((raw_mantissa <? 7) && (extra_mantissa >? 0)) * 1 in
  let float_bias_adjustment := u32 (127 - bias) in
  let quarter_max_exponent := u32 (float_bias_adjustment + 15) in
  let clamp_top := b2z (raw_exponent >=? quarter_max_exponent) in
  let clamp_bottom := b2z (raw_exponent <? float_bias_adjustment) in
  let clamped := nz clamp_top || nz clamp_bottom in
  let adjusted_exponent := s32 (s32 raw_exponent - s32 float_bias_adjustment) in
  let exponent := u32 (b2z (negb clamped) * adjusted_exponent + clamp_top * 0xE) in
  let clamped_exponent := u32 (b2z (exponent <? 0xF) * exponent + b2z (exponent =? 0xF) * 0xE) in
  let clamped_mantissa := u32 (b2z (negb clamped) * rounded_mantissa + clamp_top * 0x7) in
  let prepped_bits := Z.lor (Z.lor (u32 (Z.shiftl sign 7)) (u32 (Z.shiftl clamped_exponent 3)))
                            (Z.land clamped_mantissa 0x7) in
  let special_case_tiny :=
    nz encoded_value && (negb (nz prepped_bits) && (adjusted_exponent >=? -12 + bias)) in
  let result_bits := u32 (b2z special_case_tiny * 128 + b2z (negb special_case_tiny) * prepped_bits) in
  let is_nan := (encoded_value =? Q_FLOAT_NEG_NAN) || (encoded_value =? Q_FLOAT_POS_NAN) in
  let is_inf := encoded_value =? Q_FLOAT_INF in
  let is_ninf := encoded_value =? Q_FLOAT_NEG_INF in
  (b2z is_nan * QUARTER_NAN + b2z is_inf * QUARTER_POS_INFINITY + b2z is_ninf * QUARTER_NEG_INFINITY
   + b2z (negb is_nan && negb is_inf && negb is_ninf) * result_bits) mod 256.

(** src/types/quarter_float.hpp:115-136 [quarterToFloat]. *)
Definition quarterToFloat (q quarter_bias : Z) : Z :=
  let bias := effective_bias quarter_bias in
  let special_case_tiny := q =? 128 in
  let sign := b2z (negb special_case_tiny) * Z.shiftr q 7 in
  let raw_exponent := b2z (negb special_case_tiny) * Z.shiftr (Z.land q 0x78) 3
                      + b2z special_case_tiny * 511 in
  let mantissa := b2z (negb special_case_tiny) * Z.land q 0x7 + b2z special_case_tiny * 1 in
  let mantissa_shift := b2z (negb special_case_tiny) * 20 + b2z special_case_tiny * 1 in
  let float_bias_adjustment := u32 (127 - bias) in
  let exponent := u32 (b2z ((raw_exponent >? 0) || (mantissa >? 0))
                       * (raw_exponent + float_bias_adjustment)) in
  let result := Z.lor (Z.lor (u32 (Z.shiftl sign 31)) (u32 (Z.shiftl exponent 23)))
                      (u32 (Z.shiftl mantissa mantissa_shift)) in
  u32 (b2z (q =? QUARTER_NAN) * Q_FLOAT_NEG_NAN + b2z (q =? QUARTER_POS_INFINITY) * Q_FLOAT_INF
       + b2z (q =? QUARTER_NEG_INFINITY) * Q_FLOAT_NEG_INF
       + b2z (negb (q =? QUARTER_NAN) && negb (q =? QUARTER_POS_INFINITY)
              && negb (q =? QUARTER_NEG_INFINITY)) * result).

(** src/types/tensor_impls/quarter_tensor.hpp:153 ([setVal]) followed by :100
    ([getValue]): what is read back after storing the float [b]. *)
Definition quarter_store (b : N) (bias : Z) : N :=
  Z.to_N (quarterToFloat (floatToQuarter (Z.of_N b) bias) bias).

(** src/util/tensor_utils.hpp:57-68 [estimateBias]; [fits bias] stands for the
    comparison [adj_min > -bias_max && adj_max < bias_max] at lines 62-63.
    The loop runs from [estimate_max] downwards over [n] candidates. *)
Fixpoint estimate_bias_loop (fits : Z -> bool) (estimate_min : Z) (proposed : Z) (n : nat) : Z :=
  match n with
  | O => estimate_min
  | S n' => if fits proposed then proposed
            else estimate_bias_loop fits estimate_min (proposed - 1) n'
  end.
Definition estimateBias (fits : Z -> bool) (estimate_min estimate_max : Z) : Z :=
  estimate_bias_loop fits estimate_min estimate_max (Z.to_nat (estimate_max - estimate_min + 1)).
