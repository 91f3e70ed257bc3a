(** Model of saving and loading tensors: src/types/base_tensors.hpp:132-154 and the stream
    constructors of src/types/tensor_impls/. Values are the bit patterns of 32-bit floats. *)
From Coq Require Import List Bool Arith NArith ZArith.
From Verif Require Import Outcome PortableBytes_Model HalfFloat_Model QuarterFloat_Model.
Import ListNotations.
Open Scope N_scope.

(** [data] of a tensor: channel, row, column. *)
Notation cube A := (list (list (list A))).

(** src/types/tensor_impls/full_tensor.hpp:139-155. *)
Definition channelCount {A} (t : cube A) : nat := length t.
Definition rowCount {A} (t : cube A) : nat := match t with [] => 0 | c :: _ => length c end%nat.
Definition columnCount {A} (t : cube A) : nat :=
  match t with (r :: _) :: _ => length r | _ => 0 end%nat.

(** [at]: throws out of range. *)
Definition at_ {A} (l : list A) (i : nat) : outcome A :=
  match nth_error l i with Some a => Ok a | None => Throw end.
(** src/types/tensor_impls/full_tensor.hpp:157-159 [getValue]. *)
Definition getValue {A} (t : cube A) (row column channel : nat) : outcome A :=
  do c <- at_ t channel; do r <- at_ c row; at_ r column.

(** [stream.write] of a value in portable order. *)
Definition put64 (x : N) : list N := store_le 8 (portable_bytes64 x).
Definition put32 (x : N) : list N := store_le 4 (portable_bytes32 x).

(** src/types/base_tensors.hpp:145-153: the loops over channels, rows, columns. *)
Definition save_body (t : cube N) : outcome (list N) :=
  omap (@concat N) (omapM (fun channel =>
    omap (@concat N) (omapM (fun row =>
      omap (@concat N) (omapM (fun column => omap put32 (getValue t row column channel))
        (seq 0 (columnCount t)))) (seq 0 (rowCount t)))) (seq 0 (channelCount t))).

(** src/types/base_tensors.hpp:132-154 [save]. *)
Definition save_tensor (t : cube N) : outcome (list N) :=
  do body <- save_body t;
  Ok (put64 (N.of_nat (channelCount t)) ++ put64 (N.of_nat (rowCount t)) ++
      put64 (N.of_nat (columnCount t)) ++ body).

(** Readers take the bytes that are left. A read at the end of the file leaves the variable
    uninitialised: [UB]. *)
Definition reader A := list N -> outcome (A * list N).

Definition read32 : reader N := fun bs =>
  match bs with
  | a :: b :: c :: d :: r => Ok (load_le [a; b; c; d], r)
  | _ => UB
  end.
Definition read64 : reader N := fun bs =>
  match bs with
  | a :: b :: c :: d :: e :: f :: g :: h :: r => Ok (load_le [a; b; c; d; e; f; g; h], r)
  | _ => UB
  end.

Fixpoint times {A} (n : nat) (rd : reader A) (bs : list N) : outcome (list A * list N) :=
  match n with
  | O => Ok ([], bs)
  | S n' => do p <- rd bs; do q <- times n' rd (snd p); Ok (fst p :: fst q, snd q)
  end.

(** src/types/tensor_impls/full_tensor.hpp:183-198 [assignBodyFromStream] (the same loop in
    pixel_tensor.hpp:142-157, quarter_tensor.hpp:131-146, half_tensor.hpp); [store] is the
    conversion in [setVal]. *)
Definition load_body {A} (store : N -> A) (rows columns channels : N) : reader (cube A) :=
  times (N.to_nat channels) (times (N.to_nat rows) (times (N.to_nat columns)
    (fun bs => do p <- read32 bs; Ok (store (portable_bytes32 (fst p)), snd p)))).

(** src/types/tensor_impls/full_tensor.hpp:168-181 [assignFromStream]. *)
Definition load_tensor {A} (store : N -> A) : reader (cube A) := fun bs =>
  do c <- read64 bs; do r <- read64 (snd c); do k <- read64 (snd r);
  load_body store (portable_bytes64 (fst r)) (portable_bytes64 (fst k)) (portable_bytes64 (fst c)) (snd k).

(** Conversions in [setVal]: full (full_tensor.hpp:200-202), half (half_tensor.hpp), quarter
    (quarter_tensor.hpp:152-154). *)
Definition store_full (x : N) : N := x.
Definition store_half (x : N) : N := floatToHalf x.
Definition store_quarter (bias : Z) (x : N) : Z := floatToQuarter (Z.of_N x) bias.
