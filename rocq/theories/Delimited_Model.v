(** Model of delimited text files: src/util/file_writer.hpp [DelimitedTextFileWriter],
    src/util/file_reader.hpp [DelimitedTextFileReader], and the text helpers of
    src/training_data/data_encoder.hpp they use. *)
From Coq Require Import Ascii String List Bool NArith.
From Verif Require Import Chars Outcome TextCodec_Model Replace_Model Lines_Model.
Import ListNotations.
Open Scope char_scope.

(** First half of [strip]: erase up to the first character that is not white space. *)
Fixpoint lstrip (s : str) : str :=
  match s with
  | [] => []
  | c :: t => if isspace c then lstrip t else s
  end.

(** src/training_data/data_encoder.hpp:39-45 [trimEnd]; also the second half of [strip]. *)
Definition trimEnd (s : str) : str := rev (lstrip (rev s)).

(** src/training_data/data_encoder.hpp:28-37 [strip]. *)
Definition strip (s : str) : str := trimEnd (lstrip s).

(** Lower-case letter, for the case-insensitive "inf" and "nan" of [std::from_chars]. *)
Definition tolower (c : ascii) : ascii :=
  if isupper c then ascii_of_N (code c + 32)%N else c.

(** Does [std::from_chars] find a number at the start of the text (general format: optional
    minus, then digits, or a point and digits, or "inf"/"nan" in any case)? *)
Definition starts_with_number (s : str) : bool :=
  let u := match s with c :: t => if ceq c "-" then t else s | [] => s end in
  match u with
  | c :: t =>
    isdigit c
    || (ceq c "." && match t with d :: _ => isdigit d | [] => false end)
    || match strip_prefix ceq (lit "inf") (map tolower u) with Some _ => true | None => false end
    || match strip_prefix ceq (lit "nan") (map tolower u) with Some _ => true | None => false end
  | [] => false
  end.

Section Delimited.
(** [std::from_chars] also fails when the number does not fit a [float]; which texts that
    concerns is left open. *)
Context (in_range : str -> bool) (delimiter : ascii).

(** src/training_data/data_encoder.hpp:64-68 [isFloat]: only the error code is looked at,
    not how much of the text was used. *)
Definition isFloat (s : str) : bool := starts_with_number s && in_range s.

Definition first_is (c : ascii) (s : str) : bool :=
  match s with x :: _ => ceq x c | [] => false end.
Definition last_is (c : ascii) (s : str) : bool := first_is c (rev s).

(** [s.substr(1, s.length() - 2)] for a non-empty text whose first and last character are
    quotes; for length 1 the count wraps around and the result is empty. *)
Definition inner (s : str) : str := removelast (tl s).

(** src/util/file_writer.hpp:79-82: doubling of quotes, escaping, quoting. *)
Definition quoted (s : str) : str :=
  DQ :: encodeString (replace_all ceq s [DQ] [DQ; DQ]) delimiter ++ [DQ].

(** src/util/file_writer.hpp:74-89, one column. *)
Definition write_field (column : str) : str :=
  let stripped := strip column in
  match stripped with
  | [] => []
  | _ :: _ =>
    if first_is DQ stripped && last_is DQ stripped then quoted (inner stripped)
    else if negb (isFloat stripped) then quoted stripped
    else stripped
  end.

(** src/util/file_writer.hpp:70-94 [writeRecord]: the line written. *)
Fixpoint write_record (record : list str) : str :=
  match record with
  | [] => []
  | [f] => write_field f
  | f :: rest => write_field f ++ delimiter :: write_record rest
  end.

(** Content of the file after [writeRecord] for each record. *)
Definition write_records (records : list (list str)) : str :=
  write_lines (map write_record records).

(** src/util/file_reader.hpp:184-194 [decode]. *)
Definition decode (word : str) : str :=
  let s := strip word in
  let s := if first_is DQ s && last_is DQ s then inner s else s in
  decodeString (replace_all ceq s [DQ; DQ] [DQ]) delimiter.

(** src/util/file_reader.hpp:151-170: one line; [word] is [current_word], [result] the
    fields so far. *)
Fixpoint scan (line : str) (in_quotes : bool) (word : str) (result : list str)
  : bool * str * list str :=
  match line with
  | [] => (in_quotes, word, result)
  | c :: t =>
    if ceq c delimiter && negb in_quotes then scan t in_quotes [] (result ++ [decode word])
    else if ceq c DQ then
      if negb in_quotes then scan t true word result
      else match t with
           | c2 :: t2 => if ceq c2 DQ then scan t2 in_quotes (word ++ [c]) result
                         else scan t false word result
           | [] => scan t false word result
           end
    else scan t in_quotes (word ++ [c]) result
  end.

(** src/util/file_reader.hpp:149-181: the loop over lines and the end of [nextRecord]. *)
Fixpoint record_loop (fuel : nat) (r : line_reader) (in_quotes : bool) (word : str)
    (result : list str) : outcome (list str * line_reader) :=
  match fuel with
  | O => Throw
  | S fuel' =>
    if hasNext r then
      let (line, r') := nextLine r in
      let '(q, w, res) := scan line in_quotes word result in
      if negb q then Ok (res ++ [decode w], r')
      else record_loop fuel' r' q (w ++ [NL]) res
    else if in_quotes then Throw else Ok (result ++ [decode word], r)
  end.

(** Number of lines the reader may still have: enough iterations for the loop. *)
Definition reader_size (r : line_reader) : nat :=
  S (length (lr_cur r) + length (concat (lr_rest r))).

(** src/util/file_reader.hpp:144-182 [nextRecord]. *)
Definition nextRecord (r : line_reader) : outcome (list str * line_reader) :=
  record_loop (S (reader_size r)) r false [] [].

(** [while (reader.hasNext()) records.push_back(reader.nextRecord());] *)
Fixpoint read_records (fuel : nat) (r : line_reader) : outcome (list (list str)) :=
  match fuel with
  | O => Ok []
  | S fuel' =>
    if hasNext r then
      do x <- nextRecord r;
      do rest <- read_records fuel' (snd x);
      Ok (fst x :: rest)
    else Ok []
  end.
End Delimited.
