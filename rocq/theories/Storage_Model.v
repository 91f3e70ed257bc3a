(** Model of how tensors are stored in 8, 16 or 32 bits: [materializeTensor], [loadTensor] and the constructors of
    src/types/tensor_impls/.

    Simplifications, for every definition in this file: a [float] is its 32-bit pattern; sizes are natural numbers without
    overflow; a file is the list of its bytes. *)
From Coq Require Import List Bool Arith NArith ZArith.
From Verif Require Import Outcome Float32_Spec HalfFloat_Model QuarterFloat_Model TensorFile_Model.
Import ListNotations.

(** What a tensor shows of itself (src/types/base_tensors.hpp:111-119); [getValue] is asked only inside the tensor. *)
Record tensor := { rows : nat; cols : nat; chans : nat; value : nat -> nat -> nat -> N; isMaterialized : bool }.

(** src/types/tensor_impls/full_tensor.hpp:139-159 and its copies in half_tensor.hpp:71-91, quarter_tensor.hpp:84-101:
    a tensor with [data], decoded when it is read. *)
Definition stored {A} (decode : A -> N) (data : cube A) : tensor :=
  {| rows := rowCount data; cols := columnCount data; chans := channelCount data;
     value := fun r c k => match getValue data r c k with Ok a => decode a | _ => 0%N end; isMaterialized := true |}.

(** src/types/tensor_impls/full_tensor.hpp:72-90, half_tensor.hpp:18-35, quarter_tensor.hpp:18-36, tensor_allocators.hpp:15-31:
    a vector for each channel and row, and each element converted. *)
Definition copy {A} (encode : N -> A) (t : tensor) : cube A :=
  map (fun k => map (fun r => map (fun c => encode (value t r c k)) (seq 0 (cols t))) (seq 0 (rows t))) (seq 0 (chans t)).

Definition FullTensor (t : tensor) : tensor := stored (fun x => x) (copy (fun x => x) t).
Definition HalfTensor (t : tensor) : tensor := stored halfToFloat (copy floatToHalf t).
Definition QuarterTensor (t : tensor) (bias : Z) : tensor :=
  stored (fun q => Z.to_N (quarterToFloat q bias)) (copy (store_quarter bias) t).

(** [a < b] of two [float]s; an infinity is larger than every number. *)
Definition less (a b : N) : bool := negb (isnan_bits a) && negb (isnan_bits b) && (f32_units a <? f32_units b)%Z.
(** The elements in the order of the loops: channels, then rows, then columns. *)
Definition elements (t : tensor) : list N := concat (concat (copy (fun x => x) t)).
(** src/types/base_tensors.hpp:296-312: [std::min(a, b)] is [b < a ? b : a], [std::max(a, b)] is [a < b ? b : a]. *)
Definition range (t : tensor) : N * N :=
  fold_left (fun '(minResult, maxResult) val =>
    (if less val minResult then val else minResult, if less maxResult val then val else maxResult))
    (elements t) (FLOAT_INF, FLOAT_NEG_INF).

(** Unary minus: the sign bit. *)
Definition negate (x : N) : N := N.lxor x (2 ^ 31).
(** src/util/tensor_utils.hpp:60-62 with src/types/quarter_float.hpp:20 [QUARTER_MAX]. *)
Definition fits (adj_min adj_max : N) (proposed_quarter_bias : Z) : bool :=
  let bias_max := Z.to_N (quarterToFloat 119 proposed_quarter_bias) in
  let bias_min := negate bias_max in
  less bias_min adj_min && less adj_max bias_max.

(** src/util/tensor_utils.hpp:70-84; other [bits] than 16 and 32 are taken for 8. *)
Definition materializeTensor (t : tensor) (bits : N) : tensor :=
  if (bits =? 32)%N then if isMaterialized t then t else FullTensor t
  else if (bits =? 16)%N then HalfTensor t
  else
    let '(mn, mx) := range t in
    let quarterBias := estimateBias (fits mn mx) 4 15 in
    QuarterTensor t quarterBias.

(** src/types/base_tensors.hpp:132-154: the bytes of a tensor; only used for tensors with [data], whose counts agree with it. *)
Definition save (t : tensor) : outcome (list N) := save_tensor (copy (fun x => x) t).

(** src/util/tensor_utils.hpp:99-117 *)
Definition loadTensor (file : list N) (bits : N) : outcome tensor :=
  if (bits =? 16)%N then do d <- load_tensor store_half file; Ok (stored halfToFloat (fst d))
  else if (bits =? 8)%N then do d <- load_tensor store_half file; Ok (materializeTensor (stored halfToFloat (fst d)) 8)
  else do d <- load_tensor store_full file; Ok (stored (fun x => x) (fst d)).

(** [v.at(i) = a]: throws out of range. *)
Fixpoint set_at {A} (l : list A) (i : nat) (a : A) : outcome (list A) :=
  match l, i with
  | [], _ => Throw
  | _ :: l, O => Ok (a :: l)
  | x :: l, S i => do l <- set_at l i a; Ok (x :: l)
  end.
(** src/types/tensor_impls/full_tensor.hpp:200-202, half_tensor.hpp:133-135, quarter_tensor.hpp:152-154, after the conversion. *)
Definition setVal {A} (data : cube A) (row column channel : nat) (a : A) : outcome (cube A) :=
  do c <- at_ data channel;
  do r <- at_ c row;
  do r <- set_at r column a;
  do c <- set_at c row r;
  set_at data channel c.
(** src/types/tensor_impls/tensor_allocators.hpp:15-31: new elements are 0. *)
Definition allocate {A} (zero : A) (rows columns channels : nat) : cube A := repeat (repeat (repeat zero columns) rows) channels.
(** A loop over a vector that counts along. *)
Fixpoint each {A D} (body : nat -> A -> D -> outcome D) (i : nat) (l : list A) (d : D) : outcome D :=
  match l with
  | [] => Ok d
  | x :: l => do d <- body i x d; each body (S i) l d
  end.
(** src/types/tensor_impls/full_tensor.hpp:103-119, pixel_tensor.hpp:60-76: the constructor from a nested list; [values[0][0]] is
    undefined if there is no such row. *)
Definition from_lists {A} (zero : A) (encode : N -> A) (values : cube N) : outcome (cube A) :=
  match values with
  | ((row :: _) as channel) :: _ =>
      each (fun channel_index next_channel data =>
        each (fun row_index next_row data =>
          each (fun col_index val data => setVal data row_index col_index channel_index (encode val)) 0 next_row data)
          0 next_channel data)
        0 values (allocate zero (length channel) (length row) (length values))
  | _ => UB
  end.
(** src/types/tensor_impls/half_tensor.hpp:46-54, quarter_tensor.hpp:48-57: from a list of rows; [values.at(0)] throws if there is none. *)
Definition from_rows {A} (zero : A) (encode : N -> A) (values : list (list N)) : outcome (cube A) :=
  match values with
  | row :: _ =>
      each (fun row_index next_row data =>
        each (fun col_index val data => setVal data row_index col_index 0 (encode val)) 0 next_row data)
        0 values (allocate zero (length values) (length row) 1)
  | [] => Throw
  end.
