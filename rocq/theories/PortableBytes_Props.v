(** C01 - portable byte order. *)
From Coq Require Import NArith List.
From Verif Require Import PortableBytes_Model PortableBytes_Spec PortableBytes_Proofs.
Import ListNotations.
Open Scope N_scope.

(** Converting twice gives the value back, for every 64-, 32- and 16-bit value. *)
Theorem portable_bytes_involutive :
  (forall x, x < 2^64 -> portable_bytes64 (portable_bytes64 x) = x) /\
  (forall x, x < 2^32 -> portable_bytes32 (portable_bytes32 x) = x) /\
  (forall x, x < 2^16 -> portable_bytes16 (portable_bytes16 x) = x).
Proof.
  exact (conj portable64_involutive (conj portable32_involutive portable16_involutive)).
Qed.
Print Assumptions portable_bytes_involutive.

(** The converted value is a value of the same width. *)
Theorem portable_bytes_width :
  (forall x, portable_bytes64 x < 2^64) /\
  (forall x, portable_bytes32 x < 2^32) /\
  (forall x, x < 2^16 -> portable_bytes16 x < 2^16).
Proof. exact (conj portable64_bound (conj portable32_bound portable16_bound)). Qed.
Print Assumptions portable_bytes_width.

(** The bytes a little-endian machine writes for a converted value, read as a
    big-endian number, are the original value. *)
Theorem portable_bytes_big_endian :
  (forall x, x < 2^64 -> big_endian_value (store_le 8 (portable_bytes64 x)) = x) /\
  (forall x, x < 2^32 -> big_endian_value (store_le 4 (portable_bytes32 x)) = x) /\
  (forall x, x < 2^16 -> big_endian_value (store_le 2 (portable_bytes16 x)) = x).
Proof. exact (conj store_portable64_be (conj store_portable32_be store_portable16_be)). Qed.
Print Assumptions portable_bytes_big_endian.

Example portable_bytes_ex :
  store_le 4 (portable_bytes32 0x01020304) = [1;2;3;4] /\
  portable_bytes64 0x0102030405060708 = 0x0807060504030201 /\
  portable_bytes16 0xABCD = 0xCDAB /\ 0x01020304 < 2^32.
Proof. vm_compute. repeat split. Qed.
