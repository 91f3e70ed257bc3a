(** Model of the binary dataset file: src/util/file_writer.hpp:118-260 [BinaryDatasetWriter] and
    src/util/file_reader.hpp:202-518 [BinaryDatasetReader]. Bytes and float bit patterns are [N]. *)
From Coq Require Import List Bool Arith NArith ZArith.
From Verif Require Import Outcome PortableBytes_Model TensorFile_Model Lru_Model.
Import ListNotations.
Open Scope N_scope.

(** src/util/column_metadata.hpp:10-27. *)
Record meta := {
  purpose : N; is_standardized : bool; mean : N; standard_deviation : N;
  is_normalized : bool; min_value : N; max_value : N;
  source_column_count : N; rows : N; columns : N; channels : N;
  ordered_labels : list (list N); name : list N }.

Definition bool_byte (b : bool) : N := if b then 1 else 0.
(** A count written without [portableBytes] (x86: least significant byte first). *)
Definition put64_native (x : N) : list N := store_le 8 x.
(** src/util/file_writer.hpp:234-239: length, then the bytes. *)
Definition put_string (s : list N) : list N := put64 (N.of_nat (length s)) ++ s.

(** src/util/file_writer.hpp:205-248 [writeColumnMetadata]. *)
Definition write_meta (m : meta) : list N :=
  [purpose m] ++ [bool_byte (is_standardized m)] ++ put32 (mean m) ++ put32 (standard_deviation m) ++
  [bool_byte (is_normalized m)] ++ put32 (min_value m) ++ put32 (max_value m) ++
  put64 (source_column_count m) ++ put64 (rows m) ++ put64 (columns m) ++ put64 (channels m) ++
  put64 (N.of_nat (length (ordered_labels m))) ++ concat (map put_string (ordered_labels m)) ++
  put_string (name m).

(** src/util/file_writer.hpp:189-203 [writeHeader]. *)
Definition write_header (given expected : list meta) : outcome (list N) :=
  match given with
  | [] => Throw
  | _ => Ok (put64_native (N.of_nat (length given)) ++ concat (map write_meta given) ++
             put64_native (N.of_nat (length expected)) ++ concat (map write_meta expected))
  end.

(** Tensors of a row: given, expected. *)
Notation row := (list (cube N) * list (cube N))%type.

(** src/util/file_writer.hpp:174-181: the tensors' bodies, shapes unchecked. *)
Definition row_bytes (r : row) : outcome (list N) :=
  do g <- omapM save_body (fst r); do e <- omapM save_body (snd r); Ok (concat g ++ concat e).

(** src/util/file_writer.hpp:250-259 [compute_given_hash]; [hash_print t] is [std::hash] of the
    tensor printed with 15 decimals, any function. *)
Definition compute_given_hash (hash_print : cube N -> N) (given : list (cube N)) : N :=
  fold_left (fun result t =>
    N.lxor result ((hash_print t + 0x9e3779b9 + N.shiftl result 6 + N.shiftr result 2) mod 2 ^ 64)) given 0.

(** src/util/file_writer.hpp:163-181 [writeRow]: the cache ([None]: disabled), the bytes written,
    the value returned. *)
Definition write_row (hash_print : cube N -> N) (cache : option lru) (r : row) : outcome (option lru * (list N * bool)) :=
  match cache with
  | None => do b <- row_bytes r; Ok (None, (b, true))
  | Some s =>
    do p <- touch s (compute_given_hash hash_print (fst r));
    if snd p then do b <- row_bytes r; Ok (Some (fst p), (b, true))
    else Ok (Some (fst p), ([], false))
  end.

Fixpoint write_rows (hash_print : cube N -> N) (cache : option lru) (rs : list row) : outcome (list N * list bool) :=
  match rs with
  | [] => Ok ([], [])
  | r :: t =>
    do p <- write_row hash_print cache r;
    do q <- write_rows hash_print (fst p) t;
    Ok (fst (snd p) ++ fst q, snd (snd p) :: snd q)
  end.

(** src/util/file_writer.hpp:129-142 and writing all rows: the file, and the values returned. *)
Definition write_dataset (hash_print : cube N -> N) (lru_cache_size : nat) (given expected : list meta) (rs : list row)
  : outcome (list N * list bool) :=
  do h <- write_header given expected;
  do b <- write_rows hash_print (match lru_cache_size with O => None | _ => Some (new_lru lru_cache_size) end) rs;
  Ok (h ++ fst b, snd b).

(** The input stream: the bytes left, or [None] after a read went past the end. *)
Notation stream := (option (list N)).

(** Reading into an uninitialised variable: past the end its value is indeterminate. *)
Definition get64 (s : stream) : outcome (N * stream) :=
  match s with None => UB | Some bs => do p <- read64 bs; Ok (fst p, Some (snd p)) end.
Definition get32 (s : stream) : outcome (N * stream) :=
  match s with None => UB | Some bs => do p <- read32 bs; Ok (fst p, Some (snd p)) end.
(** The single bytes are value-initialised members, but an indeterminate read always follows. *)
Definition get8 (s : stream) : outcome (N * stream) :=
  match s with Some (b :: r) => Ok (b, Some r) | _ => UB end.
Definition get_bool (s : stream) : outcome (bool * stream) :=
  do p <- get8 s;
  if fst p =? 0 then Ok (false, snd p) else if fst p =? 1 then Ok (true, snd p) else UB.
Definition get_float (s : stream) : outcome (N * stream) :=
  do p <- get32 s; Ok (portable_bytes32 (fst p), snd p).
Definition get_size (s : stream) : outcome (N * stream) :=
  do p <- get64 s; Ok (portable_bytes64 (fst p), snd p).

(** src/util/file_reader.hpp:480-487 and 490-497: a buffer of zeros filled from the stream. A
    length of 2^63 or more is a negative [streamsize]: the vector's constructor throws. *)
Definition get_string (s : stream) : outcome (list N * stream) :=
  do p <- get_size s;
  if 2 ^ 63 <=? fst p then Throw
  else
    let n := N.to_nat (fst p) in
    match snd p with
    | None => Ok (repeat 0 n, None)
    | Some bs => if Nat.leb n (length bs) then Ok (firstn n bs, Some (skipn n bs))
                 else Ok (bs ++ repeat 0 (n - length bs), None)
    end.

Fixpoint get_many {A} (n : nat) (get : stream -> outcome (A * stream)) (s : stream) : outcome (list A * stream) :=
  match n with
  | O => Ok ([], s)
  | S k => do p <- get s; do q <- get_many k get (snd p); Ok (fst p :: fst q, snd q)
  end.

(** src/util/file_reader.hpp:442-501 [readColumnMetadata]. *)
Definition read_meta (s : stream) : outcome (meta * stream) :=
  do p0 <- get8 s; do p1 <- get_bool (snd p0); do p2 <- get_float (snd p1); do p3 <- get_float (snd p2);
  do p4 <- get_bool (snd p3); do p5 <- get_float (snd p4); do p6 <- get_float (snd p5);
  do p7 <- get_size (snd p6); do p8 <- get_size (snd p7); do p9 <- get_size (snd p8); do p10 <- get_size (snd p9);
  do p11 <- get_size (snd p10);
  do p12 <- get_many (N.to_nat (fst p11)) get_string (snd p11);
  do p13 <- get_string (snd p12);
  Ok ({| purpose := fst p0; is_standardized := fst p1; mean := fst p2; standard_deviation := fst p3;
         is_normalized := fst p4; min_value := fst p5; max_value := fst p6;
         source_column_count := fst p7; rows := fst p8; columns := fst p9; channels := fst p10;
         ordered_labels := fst p12; name := fst p13 |}, snd p13).

(** src/util/file_reader.hpp:421-423, 429-431: the two counts are checked, native byte order. *)
Definition get_count (s : stream) : outcome (N * stream) :=
  match s with
  | None => Throw
  | Some bs => match read64 bs with Ok p => Ok (fst p, Some (snd p)) | _ => Throw end
  end.

(** src/util/file_reader.hpp:426, 434: bytes of a column in a row, [size_t] arithmetic. *)
Definition meta_size (m : meta) : N := (rows m * columns m * channels m * 4) mod 2 ^ 64.

Record dataset := {
  file : list N; given_metadata : list meta; expected_metadata : list meta;
  row_size : N; header_size : N; number_of_rows : N; good : bool }.

(** src/util/file_reader.hpp:206-229, 418-440: open and read the header. [tellg] of a failed
    stream is -1. Division by a row size of 0 is undefined. *)
Definition open_dataset (bytes : list N) : outcome dataset :=
  do g <- get_count (Some bytes);
  do gm <- get_many (N.to_nat (fst g)) read_meta (snd g);
  do e <- get_count (snd gm);
  do em <- get_many (N.to_nat (fst e)) read_meta (snd e);
  let size := fold_left (fun acc m => (acc + meta_size m) mod 2 ^ 64) (fst gm ++ fst em) 0 in
  let total := N.of_nat (length bytes) in
  let header := match snd em with Some rest => total - N.of_nat (length rest) | None => 2 ^ 64 - 1 end in
  if size =? 0 then UB
  else Ok {| file := bytes; given_metadata := fst gm; expected_metadata := fst em; row_size := size;
             header_size := header; number_of_rows := ((total + 2 ^ 64 - header) mod 2 ^ 64) / size;
             good := match snd em with Some _ => true | None => false end |}.

(** In-memory tensors: 32-bit floats; 8-bit codes and their bias; pixels. *)
Inductive tensor := Full (t : cube N) | Quarter (bias : Z) (t : cube Z) | Pixels (t : cube N).

Definition purpose_image : N := 73.
Definition purpose_label : N := 76.

(** src/util/file_reader.hpp:503-517 [loadTensor]; [to_pixel] is [PixelTensor::setVal]. *)
Definition load_column (to_pixel : N -> N) (m : meta) (bs : list N) : outcome (tensor * list N) :=
  if purpose m =? purpose_image then
    do p <- load_body to_pixel (rows m) (columns m) (channels m) bs; Ok (Pixels (fst p), snd p)
  else if purpose m =? purpose_label then
    do p <- load_body (store_quarter 4) (rows m) (columns m) (channels m) bs; Ok (Quarter 4 (fst p), snd p)
  else
    do p <- load_body store_full (rows m) (columns m) (channels m) bs; Ok (Full (fst p), snd p).

(** [renormalizeAndStandardize] (src/util/tensor_utils.hpp:248-269), any function of the tensor,
    its metadata and the other data set's metadata. *)
Section ReadRow.
Variable to_pixel : N -> N.
Variable renormalise : tensor -> meta -> meta -> tensor.

(** src/util/file_reader.hpp:258-269: [given_offset] stays 0. *)
Fixpoint load_columns (given_offset : nat) (renormalize : list meta) (ms : list meta) (bs : list N) : outcome (list tensor * list N) :=
  match ms with
  | [] => Ok ([], bs)
  | m :: r =>
    do p <- load_column to_pixel m bs;
    do t <- match renormalize with
            | [] => Ok (fst p)
            | _ => do other <- vec_at renormalize given_offset; Ok (renormalise (fst p) m other)
            end;
    do q <- load_columns given_offset renormalize r (snd p);
    Ok (t :: fst q, snd q)
  end.

(** src/util/file_reader.hpp:247-284 [readRow]. Reading from a failed stream leaves the values
    indeterminate. *)
Definition read_row (renorm_given renorm_expected : list meta) (d : dataset) (index : N) : outcome (list tensor * list tensor) :=
  if number_of_rows d <=? index then Throw
  else if negb (good d) then UB
  else
    do g <- load_columns 0 renorm_given (given_metadata d) (skipn (N.to_nat (header_size d + index * row_size d)) (file d));
    do e <- load_columns 0 renorm_expected (expected_metadata d) (snd g);
    Ok (fst g, fst e).
End ReadRow.
