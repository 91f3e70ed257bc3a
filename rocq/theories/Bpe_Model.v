(** Model of src/ml/byte_pair_encoder.hpp [BytePairEncoderModel]. 16-bit characters are numbers
    below 65536; [char] is signed (as on x86), so bytes from 128 on become 0xFF80..0xFFFF. *)
From Coq Require Import Ascii String List Bool Arith NArith ZArith.
From Verif Require Import Chars Outcome Replace_Model PortableBytes_Model.
Import ListNotations.
Open Scope N_scope.

Notation str16 := (list N).
Notation code_pair := (list N * list N)%type.

(** src/ml/byte_pair_encoder.hpp:88 [u16string(token.begin(), token.end())]. *)
Definition char_to_u16 (c : ascii) : N := if code c <? 128 then code c else 65280 + code c.
(** src/ml/byte_pair_encoder.hpp:120: conversion of [char16_t] to [char]. *)
Definition u16_to_char (n : N) : ascii := ascii_of_N (n mod 256).

(** Members of the class (src/ml/byte_pair_encoder.hpp:586-591). *)
Record bpe := { ordered_bpe_codes : list code_pair; delimiter_code : N; next_code : N }.

(** src/ml/byte_pair_encoder.hpp:30-37, constructor, with 595-599 [setDelimiterCode]. *)
Definition new_bpe (delimiter : N) : bpe :=
  {| ordered_bpe_codes := []; delimiter_code := delimiter; next_code := (delimiter + 1) mod 65536 |}.

Definition apply_forward (s : str16) (p : code_pair) : str16 := replace_all N.eqb s (fst p) (snd p).
Definition apply_backward (s : str16) (p : code_pair) : str16 := replace_all N.eqb s (snd p) (fst p).

(** src/ml/byte_pair_encoder.hpp:84-105 [encode] of one token: the table is walked from its end
    (reverse iterators). *)
Definition encode (b : bpe) (token : str) : str16 :=
  match token with
  | [] => []
  | _ => fold_left apply_forward (rev (ordered_bpe_codes b))
           (delimiter_code b :: map char_to_u16 token ++ [delimiter_code b])
  end.

(** src/ml/byte_pair_encoder.hpp:110-122 [decode]: the iterators [begin() + 1] and [end() - 1]
    form no range when fewer than two characters are left. *)
Definition decode (b : bpe) (encoded : str16) : outcome str :=
  match encoded with
  | [] => Ok []
  | _ => let d := fold_left apply_backward (ordered_bpe_codes b) encoded in
         if Nat.ltb (length d) 2 then UB else Ok (map u16_to_char (removelast (tl d)))
  end.

(** ** Training *)

(** A vocabulary ([unordered_map]) as a list of distinct keys with counts, in iteration order.
    Simplification: counts do not overflow. *)
Notation vocab := (list (list N * N)).

Definition key_eqb (a b : str16) : bool := if list_eq_dec N.eq_dec a b then true else false.

(** [find] and [second++], or [emplace_hint(pair, 1)]
    (src/ml/byte_pair_encoder.hpp:457-464). *)
Fixpoint vocab_add (v : vocab) (k : str16) : vocab :=
  match v with
  | [] => [(k, 1)]
  | (k', n) :: t => if key_eqb k' k then (k', n + 1) :: t else (k', n) :: vocab_add t k
  end.

(** [emplace_hint]: no effect if the key is present. *)
Definition emplace (v : vocab) (k : str16) (n : N) : vocab :=
  if existsb (fun e => key_eqb (fst e) k) v then v else v ++ [(k, n)].

Fixpoint adjacent_pairs (s : str16) : list str16 :=
  match s with
  | a :: ((b :: _) as t) => [a; b] :: adjacent_pairs t
  | _ => []
  end.

(** src/ml/byte_pair_encoder.hpp:445-468 [buildVocab]; an empty token makes
    [line16.size() - 1] wrap around, and the loop reads outside the string. The result is the same for
    601-650 (tokens taken from a file), where [append_character] delivers the tokens. *)
Definition buildVocab (b : bpe) (tokens : list str) : outcome vocab :=
  fold_left (fun r token =>
    do v <- r;
    match token with
    | [] => UB
    | _ => Ok (fold_left vocab_add (adjacent_pairs (encode b token)) v)
    end) tokens (Ok []).

(** src/ml/byte_pair_encoder.hpp:474-483 [findMostFrequentPair]. *)
Definition findMostFrequentPair (v : vocab) (min_frequency : N) : str16 * N :=
  fold_left (fun best e =>
    if Nat.ltb 1 (length (fst e)) && (snd best <? snd e) && (min_frequency <=? snd e) then e else best)
    v ([], 0).

Definition contains (s pat : str16) : bool :=
  match find_split N.eqb pat s with Some _ => true | None => false end.

(** src/ml/byte_pair_encoder.hpp:413-440 [updateCodeForMostFrequentPair]; the subtraction is
    on [size_t]. *)
Definition updateCode (v : vocab) (mf : str16) (count : N) (code : str16) : vocab :=
  let v1 := filter (fun e => negb (key_eqb (fst e) mf)) v in
  let v2 := fold_left (fun acc e =>
      let (k, n) := e : str16 * N in
      let hit := contains k mf in
      let k' := if hit then replace_all N.eqb k mf code else k in
      let n' := if hit then (n + 2 ^ 64 - count) mod 2 ^ 64 else n in
      if 0 <? n' then emplace acc k' n' else acc) v1 [] in
  emplace v2 code count.

(** src/ml/byte_pair_encoder.hpp:379-407 [mergePairs]. *)
Definition mergePairs (v : vocab) (mf code : str16) : vocab :=
  fold_left (fun acc e =>
      if contains (fst e) mf then vocab_add acc (replace_all N.eqb (fst e) mf code)
      else emplace acc (fst e) (snd e)) v [].

(** [bpe_codes[k] = v]. *)
Definition assign (t : list code_pair) (k v : str16) : list code_pair :=
  if existsb (fun e => key_eqb (fst e) k) t
  then map (fun e => if key_eqb (fst e) k then (k, v) else e) t
  else t ++ [(k, v)].

Section Train.
(** [order i v]: the iteration order of the hash map in round [i]; [stop i]: the decision of the
    validation check (only when early stopping is requested, src/ml/byte_pair_encoder.hpp:317-331);
    [sorter]: [std::sort] by code, descending. *)
Context (order : nat -> vocab -> vocab) (stop : nat -> bool)
        (sorter : list code_pair -> list code_pair).

(** src/ml/byte_pair_encoder.hpp:296-350: the loop of [train_on_vocab]; returns the table and
    [next_code_]. [num_merges] is an [int] compared with a [size_t]. *)
Fixpoint train_loop (fuel : nat) (min_frequency : N) (num_merges : Z) (merge_count : nat)
    (next : N) (table : list code_pair) (v : vocab) : list code_pair * N :=
  match fuel with
  | O => (table, next)
  | S fuel' =>
    if (match v with [] => false | _ => true end)
       && (Nat.ltb merge_count 1 || (Z.of_nat merge_count <? num_merges mod 2 ^ 64)%Z) then
      let mf := findMostFrequentPair (order merge_count v) min_frequency in
      if snd mf =? 0 then (table, next)
      else if stop merge_count then (table, next)
      else
        let table' := assign table (fst mf) [next] in
        let v' := mergePairs (updateCode (order merge_count v) (fst mf) (snd mf) [next]) (fst mf) [next] in
        let next' := (next + 1) mod 65536 in
        if 0x7FFE <=? next' then (table', next')
        else train_loop fuel' min_frequency num_merges (S merge_count) next' table' v'
    else (table, next)
  end.

(** src/util/data_util.hpp:332-341 [find_max_16bit_value]. *)
Definition find_max_16bit_value (s : str16) : N :=
  fold_left (fun m c => if (m <? c) && (c <? 0x7FFF) then c else m) s 0.

(** src/ml/byte_pair_encoder.hpp:249-254: reloading the table before training goes on. *)
Definition reload_next (next : N) (codes : list code_pair) : N :=
  fold_left (fun n e =>
    N.max ((N.max (find_max_16bit_value (fst e)) (find_max_16bit_value (snd e)) + 1) mod 65536) n)
    codes next.

(** [bpe_codes[element.first] = element.second] for every element. *)
Definition reload_table (codes : list code_pair) : list code_pair :=
  fold_left (fun t e => assign t (fst e) (snd e)) codes [].

Definition train_fuel (v : vocab) : nat := S (length v).

(** src/ml/byte_pair_encoder.hpp:217-280 [train] on the training tokens (all tokens, or those
    [splitData] selected). *)
Definition train (b : bpe) (tokens : list str) (min_frequency : N) (num_merges : Z) : outcome bpe :=
  let next := reload_next (next_code b) (ordered_bpe_codes b) in
  let table := reload_table (ordered_bpe_codes b) in
  do v <- buildVocab b tokens;
  let (t, n) := train_loop (train_fuel v) min_frequency num_merges 0 next table v in
  Ok {| ordered_bpe_codes := sorter t; delimiter_code := delimiter_code b; next_code := n |}.

(** src/ml/byte_pair_encoder.hpp:127-155 [train_on_file] (and 159-203 [train_on_folder]) on the
    tokens of the file(s): the old table is used to build the vocabulary, then dropped. *)
Definition train_on_file (b : bpe) (tokens : list str) : outcome bpe :=
  do v <- buildVocab b tokens;
  let (t, n) := train_loop (train_fuel v) 2 (-1) 0 (next_code b) [] v in
  Ok {| ordered_bpe_codes := sorter t; delimiter_code := delimiter_code b; next_code := n |}.
End Train.

(** ** Files *)

(** One string of [save] (src/ml/byte_pair_encoder.hpp:537-541): 16-bit length (truncated), then
    that many characters. *)
Definition str16_bytes (s : str16) : list N :=
  let n := N.of_nat (length s) mod 65536 in
  store_le 2 n ++ flat_map (store_le 2) (firstn (N.to_nat n) s).

(** src/ml/byte_pair_encoder.hpp:524-547 [save]: content of the file. *)
Definition save (b : bpe) : list N :=
  store_le 2 (delimiter_code b) ++
  flat_map (fun p => str16_bytes (fst p) ++ str16_bytes (snd p)) (ordered_bpe_codes b).

(** [k] characters of 16 bits; [None] when the file ends before. *)
Fixpoint read_chars (k : nat) (bytes : list N) : option (str16 * list N) :=
  match k with
  | O => Some ([], bytes)
  | S k' => match bytes with
            | a :: b :: r => match read_chars k' r with
                             | Some (s, r') => Some (a + 256 * b :: s, r')
                             | None => None
                             end
            | _ => None
            end
  end.

(** src/ml/byte_pair_encoder.hpp:564-574: one length-prefixed string. *)
Definition read_str16 (bytes : list N) : option (str16 * list N) :=
  match bytes with
  | a :: b :: r => read_chars (N.to_nat (a + 256 * b)) r
  | _ => None
  end.

(** src/ml/byte_pair_encoder.hpp:562-579: the loop; an entry is kept only if both strings
    were complete. *)
Fixpoint load_entries (fuel : nat) (bytes : list N) : list code_pair :=
  match fuel with
  | O => []
  | S fuel' =>
    match read_str16 bytes with
    | None => []
    | Some (first, r1) =>
      match read_str16 r1 with
      | None => []
      | Some (second, r2) => (first, second) :: load_entries fuel' r2
      end
    end
  end.

(** src/ml/byte_pair_encoder.hpp:549-583 [load] into model [b]: the delimiter (bytes missing
    from the file stay zero), then the entries are appended to the table. *)
Definition load (b : bpe) (bytes : list N) : bpe :=
  let d := match bytes with a :: c :: _ => a + 256 * c | [a] => a | [] => 0 end in
  {| ordered_bpe_codes := ordered_bpe_codes b ++ load_entries (S (length bytes)) (skipn 2 bytes);
     delimiter_code := d; next_code := (d + 1) mod 65536 |}.
