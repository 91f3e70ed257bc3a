(** Model of src/util/shuffler.hpp and of the data sets in src/training_data/training_dataset.hpp. *)
From Coq Require Import List Bool Arith NArith ZArith.
From Flocq Require Import IEEE754.Bits.
From Verif Require Import Outcome TensorFile_Model F32_Model.
Import ListNotations.

(** src/util/shuffler.hpp:20-25: [Shuffler(size)] holds 0, 1, ..., size-1. *)
Definition new_shuffler (size : nat) : list nat := seq 0 size.
(** src/util/shuffler.hpp:27-29 [getShuffledIndex], unchecked. *)
Definition getShuffledIndex (sh : list nat) (i : nat) : outcome nat := vec_at sh i.
(** src/util/shuffler.hpp:31-40: [shuffle] and [shuffle_predictably] rearrange the elements; [perm]
    is what [std::shuffle] does with the random numbers it draws. *)
Definition shuffle (perm : list nat -> list nat) (sh : list nat) : list nat := perm sh.

(** src/training_data/training_dataset.hpp:40-45 [setShuffler]. *)
Definition setShuffler (recordCount : nat) (sh : list nat) : outcome (option (list nat)) :=
  if Nat.eqb (length sh) recordCount then Ok (Some sh) else Throw.

(** src/training_data/training_dataset.hpp:127, 248: with no shuffler the offset itself. *)
Definition shuffled_offset (sh : option (list nat)) (offset : nat) : outcome nat :=
  match sh with Some l => getShuffledIndex l offset | None => Ok offset end.

(** src/training_data/training_dataset.hpp:244-254 [InMemoryTrainingDataSet::nextRecord]: the record
    ([None]: null) and the new offset. *)
Definition next_in_memory {A} (pairs : list A) (sh : option (list nat)) (current_offset : nat) : outcome (option A * nat) :=
  if Nat.leb (length pairs) current_offset then Ok (None, current_offset)
  else do i <- shuffled_offset sh current_offset;
       do r <- at_ pairs i;
       Ok (Some r, S current_offset).

(** An opened [BinaryDataSet]: rows of the file, what [readRow] gives, and the members at
    src/training_data/training_dataset.hpp:172-177. *)
Record binary_set (A : Type) := {
  file_rows : list A; split_shuffler : list nat; first_record_offset : nat; record_count : nat }.
Arguments file_rows {A}. Arguments split_shuffler {A}. Arguments first_record_offset {A}. Arguments record_count {A}.

(** src/training_data/training_dataset.hpp:122-137 [BinaryDataSet::nextRecord]: the index from the
    split shuffler is looked up (unchecked) and not used; [readRow] throws out of range. *)
Definition next_binary {A} (d : binary_set A) (sh : option (list nat)) (current_offset : nat) : outcome (option A * nat) :=
  if Nat.leb (record_count d) current_offset then Ok (None, current_offset)
  else do i <- shuffled_offset sh current_offset;
       do _split_shuffled_offset <- getShuffledIndex (split_shuffler d) i;
       do r <- at_ (file_rows d) (i + first_record_offset d);
       Ok (Some r, S current_offset).

(** Reading records until null, from an offset. [fuel] bounds the number of calls. *)
Fixpoint drain {A} (next : nat -> outcome (option A * nat)) (fuel offset : nat) : outcome (list A) :=
  match fuel with
  | O => Ok []
  | S f => do p <- next offset;
           match fst p with
           | None => Ok []
           | Some a => do l <- drain next f (snd p); Ok (a :: l)
           end
  end.

(** src/training_data/training_dataset.hpp:82-92, 101-111: offset and number of the records of a
    split of [rowCount] rows; [size_t] and [float] arithmetic. *)
Definition split_range (rowCount : N) (split : binary32) : outcome (N * N) :=
  if fgt split (of_Z 0) then
    do count <- to_size (fmul (of_N rowCount) split); Ok (0, count)%N
  else
    do first <- to_size (fmul (of_N rowCount) (fadd (of_Z 1) split));
    Ok (first, (rowCount + 2 ^ 64 - first) mod 2 ^ 64)%N.
