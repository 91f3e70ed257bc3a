(** Model of src/types/half_float.hpp. A [float] is its 32-bit pattern. *)
From Coq Require Import NArith Bool.
Open Scope N_scope.

(** src/types/quarter_float.hpp:12-15 and src/types/half_float.hpp:11-14. *)
Definition FLOAT_NEG_NAN : N := 0xFFC00000.
Definition FLOAT_POS_NAN : N := 0x7FC00000.
Definition FLOAT_INF : N := 0x7F800000.
Definition FLOAT_NEG_INF : N := 0xFF800000.
Definition HALF_POS_NAN : N := 0x7F81.
Definition HALF_NEG_NAN : N := 0xFF81.
Definition HALF_POS_INF : N := 0x7F80.
Definition HALF_NEG_INF : N := 0xFF80.

(** [isnan]/[isinf] of the C++ library on a bit pattern (used at
    src/types/half_float.hpp:29,34). *)
Definition isnan_bits (b : N) : bool :=
  (N.land b 0x7F800000 =? 0x7F800000) && negb (N.land b 0x007FFFFF =? 0).
Definition isinf_bits (b : N) : bool :=
  (N.land b 0x7F800000 =? 0x7F800000) && (N.land b 0x007FFFFF =? 0).

(** src/types/half_float.hpp:27-41 [floatToHalf]. *)
Definition floatToHalf (encoded_value : N) : N :=
  if isnan_bits encoded_value then
    if encoded_value =? FLOAT_NEG_NAN then HALF_NEG_NAN else HALF_POS_NAN
  else if isinf_bits encoded_value then
    if encoded_value =? FLOAT_NEG_INF then HALF_NEG_INF else HALF_POS_INF
  else (N.shiftr encoded_value 16) mod 2^16.

(** src/types/half_float.hpp:43-47 [halfToFloat]. [h << 16] is done in [int]
    and stored into a [uint32_t]. *)
Definition halfToFloat (h : N) : N := (N.shiftl h 16) mod 2^32.
