(** Model of src/util/portable_bytes.hpp (little-endian build: SWAP_BYTES = 1). *)
From Coq Require Import NArith List.
Import ListNotations.
Open Scope N_scope.

(** src/util/portable_bytes.hpp:90-100, [uint64_t portableBytes(uint64_t)].
    Shifts that leave 64 bits are truncated by the masks in the source, so no
    extra truncation is needed. *)
Definition portable_bytes64 (bytes : N) : N :=
  let a := N.shiftl (N.land bytes 0x00000000000000ff) 56 in
  let b := N.shiftl (N.land bytes 0x000000000000ff00) 40 in
  let c := N.shiftl (N.land bytes 0x0000000000ff0000) 24 in
  let d := N.shiftl (N.land bytes 0x00000000ff000000) 8 in
  let e := N.shiftr (N.land bytes 0x000000ff00000000) 8 in
  let f := N.shiftr (N.land bytes 0x0000ff0000000000) 24 in
  let g := N.shiftr (N.land bytes 0x00ff000000000000) 40 in
  let h := N.shiftr (N.land bytes 0xff00000000000000) 56 in
  N.lor (N.lor (N.lor (N.lor (N.lor (N.lor (N.lor a b) c) d) e) f) g) h.

(** src/util/portable_bytes.hpp:102-108, [uint32_t portableBytes(uint32_t)]. *)
Definition portable_bytes32 (bytes : N) : N :=
  let a := N.shiftl (N.land bytes 0x000000ff) 24 in
  let b := N.shiftl (N.land bytes 0x0000ff00) 8 in
  let c := N.shiftr (N.land bytes 0x00ff0000) 8 in
  let d := N.shiftr (N.land bytes 0xff000000) 24 in
  N.lor (N.lor (N.lor a b) c) d.

(** src/util/portable_bytes.hpp:110-112, [uint16_t portableBytes(uint16_t)].
    The operands are promoted to [int]; the return converts back to 16 bits. *)
Definition portable_bytes16 (bytes : N) : N :=
  N.land (N.lor (N.shiftl bytes 8) (N.shiftr bytes 8)) 0xffff.

(** [stream.write(reinterpret_cast<const char*>(&x), n)] on a little-endian
    machine (e.g. src/util/file_writer.hpp:194,210; src/types/base_tensors.hpp:141):
    least significant byte first. *)
Fixpoint store_le (n : nat) (x : N) : list N :=
  match n with
  | O => []
  | S n' => x mod 256 :: store_le n' (x / 256)
  end.

(** [stream.read(reinterpret_cast<char*>(&x), n)] on a little-endian machine
    (e.g. src/util/file_reader.hpp:421,448). *)
Fixpoint load_le (bs : list N) : N :=
  match bs with
  | [] => 0
  | b :: r => b + 256 * load_le r
  end.
