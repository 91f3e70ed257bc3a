(** Model of the tokenizer and the sample split of src/util/data_util.hpp. *)
From Coq Require Import Ascii String List Bool Arith NArith.
From Verif Require Import Chars Outcome.
Import ListNotations.
Open Scope char_scope.

(** [last_char], [token], [tokens] of [append_character]. *)
Record tok_state := { ts_last : ascii; ts_token : str; ts_tokens : list str }.

(** [if (!token.empty()) { tokens.push_back(token); token.clear(); }]
    (src/util/data_util.hpp:104-107, 114-117, 136-138, 161-163). *)
Definition flush (token : str) (tokens : list str) : list str :=
  match token with [] => tokens | _ => tokens ++ [token] end.

(** src/util/data_util.hpp:99-126 [append_character]; the variant with a callback (57-89) has
    the same text with [process_token] for [tokens.push_back]. *)
Definition append_character (s : tok_state) (c : ascii) : tok_state :=
  if ceq c CR then s
  else if isspace c then
    if negb (ceq c (ts_last s)) then
      {| ts_last := c; ts_token := [c]; ts_tokens := flush (ts_token s) (ts_tokens s) |}
    else {| ts_last := c; ts_token := ts_token s; ts_tokens := ts_tokens s |}
  else if isprint c && negb (isalnum c) && (negb (ceq c ".") || negb (isdigit (ts_last s))) then
    {| ts_last := c; ts_token := []; ts_tokens := flush (ts_token s) (ts_tokens s) ++ [[c]] |}
  else if negb (isprint c) then
    {| ts_last := c; ts_token := ts_token s ++ [ascii_of_N 254]; ts_tokens := ts_tokens s |}
  else {| ts_last := c; ts_token := ts_token s ++ [c]; ts_tokens := ts_tokens s |}.

Definition tok_start : tok_state := {| ts_last := ascii_of_N 0; ts_token := []; ts_tokens := [] |}.
Definition tok_finish (s : tok_state) : list str := flush (ts_token s) (ts_tokens s).

(** src/util/data_util.hpp:128-142 [string_to_tokens]. *)
Definition string_to_tokens (text : str) : list str :=
  tok_finish (fold_left append_character text tok_start).

(** A file delivered in pieces by [read]: full buffers and the rest. *)
Fixpoint pieces (fuel size : nat) (content : str) : list str :=
  match fuel with
  | O => [content]
  | S fuel' => if Nat.leb size (length content) then firstn size content :: pieces fuel' size (skipn size content)
               else [content]
  end.

(** src/util/data_util.hpp:144-168 [load_file_to_tokens] (buffer of [size] bytes; the code has
    32 * 1024). *)
Definition load_file_to_tokens (size : nat) (content : str) : list str :=
  tok_finish (fold_left (fun s piece => fold_left append_character piece s)
                        (pieces (length content) size content) tok_start).

(** src/util/data_util.hpp:216-240 [splitData]. [indices] is the shuffled index vector,
    [validation_size] the value of [static_cast<size_t>(data.size() * validation_ratio)]; if it
    exceeds the number of samples [train_size] wraps around and the first loop leaves the vectors. *)
Definition splitData {A} (data : list A) (indices : list nat) (validation_size : nat)
  : outcome (list A * list A) :=
  if Nat.leb validation_size (length data) then
    let train_size := length data - validation_size in
    do train <- omapM (fun i => do j <- vec_at indices i; vec_at data j) (seq 0 train_size);
    do valid <- omapM (fun i => do j <- vec_at indices i; vec_at data j) (seq train_size validation_size);
    Ok (train, valid)
  else UB.

(** src/util/data_util.hpp:196-214 [sampleData]: with [validation_size] too large the loop
    starts beyond the data... [train_size] wraps to a huge number, so the loop body never runs. *)
Definition sampleData {A} (data : list A) (indices : list nat) (validation_size : nat) : outcome (list A) :=
  if Nat.leb validation_size (length data) then
    omapM (fun i => do j <- vec_at indices i; vec_at data j)
          (seq (length data - validation_size) validation_size)
  else Ok [].

(** Conversion of a [size_t] to [float] (round to nearest, ties to even, 24 significant bits). *)
Definition f32_of_N (n : N) : N :=
  if N.ltb n (2 ^ 24) then n
  else let e := (N.log2 n - 23)%N in
       let u := (2 ^ e)%N in
       let q := (n / u)%N in let r := (n mod u)%N in
       let up := N.ltb u (2 * r) || (N.eqb (2 * r) u && N.odd q) in
       ((if up then q + 1 else q) * u)%N.
