(** Model of src/types/tensor_impls/pixel_tensor.hpp: 8-bit pixels standing for floats. *)
From Coq Require Import NArith ZArith Bool.
From Flocq Require Import IEEE754.Bits.
From Verif Require Import Outcome F32_Model.

(** [std::min(a, b)] is [b < a ? b : a], [std::max(a, b)] is [a < b ? b : a]. *)
Definition std_min (a b : binary32) : binary32 := if flt b a then b else a.
Definition std_max (a b : binary32) : binary32 := if flt a b then b else a.

(** src/types/tensor_impls/pixel_tensor.hpp:159-161 [setVal]. *)
Definition pixel_store (val : binary32) : outcome N :=
  to_unsigned 8 (fmul (std_max (of_Z 0) (std_min val (of_Z 1))) (of_Z 255)).

(** src/types/tensor_impls/pixel_tensor.hpp:121-123 [getValue]. *)
Definition pixel_value (k : N) : binary32 := fdiv (of_N k) (of_Z 255).
