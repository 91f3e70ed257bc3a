(** Specification vocabulary: IEEE-754 binary32 bit patterns and their exact value.
    Independent of the code in /repo. *)
From Coq Require Import NArith ZArith.
Open Scope N_scope.

Definition f32_sign (b : N) : bool := 2^31 <=? b.
Definition f32_exp (b : N) : N := (b / 2^23) mod 256.
Definition f32_man (b : N) : N := b mod 2^23.

Definition f32_is_nan (b : N) : Prop := f32_exp b = 255 /\ f32_man b <> 0.
Definition f32_is_inf (b : N) : Prop := f32_exp b = 255 /\ f32_man b = 0.
Definition f32_finite (b : N) : Prop := f32_exp b < 255.

(** Magnitude of a finite binary32 number in units of 2^-149 (every finite
    binary32 number is an integer multiple of 2^-149). *)
Definition f32_mag (b : N) : N :=
  if f32_exp b =? 0 then f32_man b else (2^23 + f32_man b) * 2^(f32_exp b - 1).

(** Signed exact value in units of 2^-149. *)
Definition f32_units (b : N) : Z :=
  if f32_sign b then Z.opp (Z.of_N (f32_mag b)) else Z.of_N (f32_mag b).
