(** 32-bit float arithmetic as the C++ code does it: IEEE 754 binary32, round to nearest even
    (Flocq). Executable. *)
From Coq Require Import ZArith NArith Bool.
From Flocq Require Import Core.FLX IEEE754.BinarySingleNaN IEEE754.Binary IEEE754.Bits.
From Verif Require Import Outcome.
Local Open Scope Z_scope.

Definition prec_ok : Prec_gt_0 24 := eq_refl.
Definition emax_ok : Prec_lt_emax 24 128 := eq_refl.

(** A float from its bits, and the bits of a float. *)
Definition of_bits (n : N) : binary32 := b32_of_bits (Z.of_N n).
Definition to_bits (x : binary32) : N := Z.to_N (bits_of_b32 x).

(** Conversion of an integer to float. *)
Definition of_Z (z : Z) : binary32 := binary_normalize 24 128 prec_ok emax_ok mode_NE z 0 false.
Definition of_N (n : N) : binary32 := of_Z (Z.of_N n).

Definition fadd (x y : binary32) : binary32 := b32_plus mode_NE x y.
Definition fsub (x y : binary32) : binary32 := b32_minus mode_NE x y.
Definition fmul (x y : binary32) : binary32 := b32_mult mode_NE x y.
Definition fdiv (x y : binary32) : binary32 := b32_div mode_NE x y.

(** Comparisons; false with a NaN. *)
Definition flt (x y : binary32) : bool := match b32_compare x y with Some Lt => true | _ => false end.
Definition fgt (x y : binary32) : bool := match b32_compare x y with Some Gt => true | _ => false end.
Definition fle (x y : binary32) : bool := match b32_compare x y with Some Lt | Some Eq => true | _ => false end.
Definition fge (x y : binary32) : bool := match b32_compare x y with Some Gt | Some Eq => true | _ => false end.
Definition feq (x y : binary32) : bool := match b32_compare x y with Some Eq => true | _ => false end.

Definition finite (x : binary32) : bool := is_finite 24 128 x.

(** Conversion to an unsigned integer of [w] bits: truncates; out of range it is undefined. *)
Definition to_unsigned (w : Z) (x : binary32) : outcome N :=
  if finite x then
    let z := Btrunc 24 128 x in
    if (0 <=? z) && (z <? 2 ^ w) then Ok (Z.to_N z) else UB
  else UB.
Definition to_size (x : binary32) : outcome N := to_unsigned 64 x.
