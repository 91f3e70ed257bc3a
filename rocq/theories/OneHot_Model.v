(** Model of src/util/one_hot_encoder.hpp and of the embedder interface of
    src/ml/rotary_positional_embedding.hpp:33-131. *)
From Coq Require Import List Bool Arith NArith ZArith Ascii.
From Flocq Require Import IEEE754.Binary IEEE754.Bits.
From Verif Require Import Outcome Chars F32_Model Encode_Model Bpe_Model.
Import ListNotations.

(** [v\[i\] = x] on a vector: undefined unless the index is in range. A negative [int] or [char]
    index converts to a huge [size_t], also out of range. *)
Definition vec_set {A} (v : list A) (i : Z) (x : A) : outcome (list A) :=
  if ((0 <=? i) && (i <? Z.of_nat (length v)))%Z
  then Ok (firstn (Z.to_nat i) v ++ x :: skipn (S (Z.to_nat i)) v) else UB.

(** src/util/one_hot_encoder.hpp:18-31. *)
Definition pad_or_truncate_tokens (tokens : list (list binary32)) (target_length token_size : nat) : list (list binary32) :=
  if (target_length <? length tokens)%nat then firstn target_length tokens
  else tokens ++ repeat (repeat f0 token_size) (target_length - length tokens).

(** src/util/one_hot_encoder.hpp:33-49; the loops over tokens and their characters push one
    vector per character. *)
Definition one_hot_bpe_code (largest_bpe_code : N) (c : N) : outcome (list binary32) :=
  let encoded_chars := repeat f0 (N.to_nat largest_bpe_code) in
  if (c <=? largest_bpe_code)%N then vec_set encoded_chars (Z.of_N c) f1 else Ok encoded_chars.
Definition one_hot_encode_bpe_tokens (tokens : list (list N)) (largest_bpe_code : N) : outcome (list (list binary32)) :=
  omapM (one_hot_bpe_code largest_bpe_code) (concat tokens).

(** src/util/one_hot_encoder.hpp:51-64; [char] is signed. *)
Definition signed_char (c : ascii) : Z := if (code c <? 128)%N then Z.of_N (code c) else (Z.of_N (code c) - 256)%Z.
Definition one_hot_encode_characters (tokens : list str) : outcome (list (list binary32)) :=
  omapM (fun c => vec_set (repeat f0 255) (signed_char c) f1) (concat tokens).

(** src/util/one_hot_encoder.hpp:66-84; the map as a list of distinct keys. *)
Definition one_hot_encode_words (tokens : list str) (token_to_index : list (str * Z)) : outcome (list (list binary32)) :=
  omapM (fun token =>
    let encoded_words := repeat f0 (length token_to_index) in
    match find (fun q => seq_eqb (fst q) token) token_to_index with
    | Some q => vec_set encoded_words (snd q) f1
    | None => Ok encoded_words
    end) tokens.

(** src/ml/byte_pair_encoder.hpp:371 [getLargestCode]. *)
Definition getLargestCode (b : bpe) : N := next_code b.

(** src/ml/rotary_positional_embedding.hpp:113-127 [embed_token]; [pe] is the table
    [positional_encoding] of lines 86-105 (its values are sines and cosines, not modelled). *)
Definition embed_token (sequence_length dimensionality : nat) (pe : list (list binary32))
    (token : list binary32) (position : nat) : outcome (list binary32) :=
  if (sequence_length <=? position)%nat then Throw else
  if (dimensionality <? length token)%nat then Throw else
  do row <- vec_at pe position;
  do sums <- omapM (fun i => do t <- vec_at token i; do p <- vec_at row i; Ok (fadd t p)) (seq 0 (length token));
  Ok (sums ++ repeat f0 (dimensionality - length token)).

(** src/ml/rotary_positional_embedding.hpp:55-67 [embed_tokens]. *)
Fixpoint embed_loop (sequence_length dimensionality : nat) (pe : list (list binary32))
    (position : nat) (tokens : list (list binary32)) : outcome (list (list binary32)) :=
  match tokens with
  | [] => Ok []
  | token :: rest =>
    do e <- embed_token sequence_length dimensionality pe token position;
    if (sequence_length <=? S position)%nat then Ok [e]
    else do es <- embed_loop sequence_length dimensionality pe (S position) rest; Ok (e :: es)
  end.
Definition embed_tokens (sequence_length dimensionality : nat) (pe : list (list binary32)) (tokens : list (list binary32)) :=
  embed_loop sequence_length dimensionality pe 0 tokens.

(** src/util/text_embedder.hpp:20-38 after tokenisation. *)
Definition text_to_tensor_bpe_rotary (tokens : list str) (b : bpe) (sequence_length dimensionality : nat)
    (pe : list (list binary32)) : outcome (list (list binary32)) :=
  do oh <- one_hot_encode_bpe_tokens (map (encode b) tokens) (getLargestCode b);
  embed_tokens sequence_length dimensionality pe oh.
