(** Model of src/lang/parser/parser.hpp and of [TokenStream], src/lang/lexer/token.hpp:85-139. *)
From Coq Require Import Ascii String List Bool Arith NArith ZArith.
From Verif Require Import Chars Outcome Delimited_Model Lexer_Model Literal_Model.
Import ListNotations.

(** [TokenStream]: the tokens before the offset, last first, and those from it on. *)
Record stream := { before : list token; after : list token }.

(** An error text: fixed text and, for some, a rendered token. *)
Notation message := (string * option token)%type.
(** [generateError]: the text followed by the rendered token. *)
Record error := { e_message : message; e_token : token }.

Inductive presult (A : Type) : Type :=
| PVal (a : A) (s : stream)
(** an unsuccessful [ParseResult] is returned *)
| PErr (e : error)
(** a [std::runtime_error] is thrown *)
| PRun (m : message) (s : stream)
(** a [std::logic_error] ([out_of_range] or [invalid_argument]) is thrown *)
| PLog (s : stream)
(** undefined behaviour *)
| PUB
(** the model's loop bound was reached (never: see [parse_total]) *)
| PFuel.
Arguments PVal {A}. Arguments PErr {A}. Arguments PRun {A}. Arguments PLog {A}. Arguments PUB {A}. Arguments PFuel {A}.

Definition pbind {A B} (x : presult A) (f : A -> stream -> presult B) : presult B :=
  match x with
  | PVal a s => f a s | PErr e => PErr e | PRun m s => PRun m s | PLog s => PLog s | PUB => PUB | PFuel => PFuel
  end.
Notation "'let!' x ',' s ':=' e1 'in' e2" := (pbind e1 (fun x s => e2)) (at level 200, x name, s name, e1 at level 100, e2 at level 200).

(** src/lang/lexer/token.hpp:92-95 [hasNext]. *)
Definition hasNext (n : nat) (s : stream) : bool := Nat.leb n (List.length (after s)).
(** src/lang/lexer/token.hpp:97-103 [peek]. *)
Definition peek (s : stream) : presult token := match after s with t :: _ => PVal t s | [] => PLog s end.
(** src/lang/lexer/token.hpp:112-116 [next]. *)
Definition next (s : stream) : presult token :=
  match after s with t :: r => PVal t {| before := t :: before s; after := r |} | [] => PLog s end.
(** src/lang/lexer/token.hpp:118-123 [consume]. *)
Fixpoint consume (n : nat) (s : stream) : presult unit :=
  match n with O => PVal tt s | S k => let! _, s := next s in consume k s end.
(** src/lang/lexer/token.hpp:105-110 [previous]. *)
Definition previous (s : stream) : option token := hd_error (before s).

(** src/lang/parser/parser.hpp:44-48 [generateError]; a null token is dereferenced. *)
Definition generateError {A} (m : message) (t : option token) : presult A :=
  match t with Some t => PErr {| e_message := m; e_token := t |} | None => PUB end.
Definition msg (s : string) : message := (s, None).

Definition is_label (l : string) (t : token) : bool := String.eqb (label t) l.
Definition is_value (v : string) (t : token) : bool := seq_eqb (value t) (lit v).

(** [std::stoi] on an [int] of 32 bits. *)
Fixpoint digits_value (acc : Z) (s : str) : option Z :=
  match s with
  | c :: t => if isdigit c then
                let acc := (acc * 10 + (Z.of_N (code c) - 48))%Z in
                match t with d :: _ => if isdigit d then digits_value acc t else Some acc | [] => Some acc end
              else None
  | [] => None
  end.
Definition stoi (s : str) : option Z :=
  let s := lstrip s in
  let neg := match s with c :: _ => ceq c "-" | [] => false end in
  let s := match s with c :: t => if ceq c "-" || ceq c "+" then t else s | [] => s end in
  match digits_value 0 s with
  | Some v => let v := if neg then (- v)%Z else v in
              if ((- 2 ^ 31 <=? v) && (v <? 2 ^ 31))%Z then Some v else None
  | None => None
  end.

(** src/lang/parser/parser.hpp:77-85 [parseNextNumber]. *)
Definition parseNextNumber (s : stream) : presult Z :=
  let invalid (s : stream) := match previous s with
                   | Some t => PRun ("Invalid Value: "%string, Some t) s
                   | None => PUB
                   end in
  match next s with
  | PVal t s => match stoi (value t) with Some v => PVal v s | None => invalid s end
  | PLog s => invalid s
  | PErr e => PErr e | PRun m s => PRun m s | PUB => PUB | PFuel => PFuel
  end.

(** The parts of [ColumnGroup] (src/training_data/training_dataset.hpp:289-) set by the parser; [int] to
    [size_t] conversions wrap. *)
Record group := { g_id : Z; g_use : str; g_type : str; g_label : str; g_rows : Z; g_columns : Z; g_channels : Z;
                  g_start : Z; g_count : Z }.
Definition to_size_t (z : Z) : Z := (z mod 2 ^ 64)%Z.

(** src/lang/parser/parser.hpp:102-136: rows, columns, channels and the label of the token after them. *)
Definition parseDimensions (dim_or_at : string) (s : stream) : presult (Z * Z * Z * string) :=
  if String.eqb "_open_parenthesis" dim_or_at && hasNext 1 s then
    let! next_val, s := parseNextNumber s in
    if negb (hasNext 1 s) then generateError (msg "with statement data type dimensions is incomplete: ") (previous s) else
    let! t, s := next s in
    if is_label "_close_parenthesis" t then
      let! t, s := next s in PVal (1, next_val, 1, label t)%Z s
    else if negb (is_label "_comma" t) || negb (hasNext 1 s)
      then generateError (msg "with statement data type dimensions expected a comma after: ") (previous s) else
    let! columns, s := parseNextNumber s in
    let! t, s := next s in
    if is_label "_close_parenthesis" t then
      let! t, s := next s in PVal (next_val, columns, 1, label t)%Z s
    else if negb (is_label "_comma" t) || negb (hasNext 1 s)
      then generateError (msg "with statement data type dimensions expected a comma after: ") (previous s) else
    let! channels, s := parseNextNumber s in
    let! t, s := next s in
    if negb (is_label "_close_parenthesis" t) || negb (hasNext 1 s)
      then generateError (msg "with statement data type dimensions expected a closing parenthesis after: ") (previous s) else
    let! t, s := next s in PVal (next_val, columns, channels, label t) s
  else PVal (1, 1, 1, dim_or_at)%Z s.

(** src/lang/parser/parser.hpp:91-143 [parseColumnGroup]. *)
Definition parseColumnGroup (id : Z) (use : str) (s : stream) : presult group :=
  if negb (hasNext 1 s) then generateError (msg "with statement data type missing ") (previous s) else
  let! data_type, s := next s in
  if negb (hasNext 1 s) then generateError (msg "with statement label missing ") (previous s) else
  let! lab, s := next s in
  let! t, s := next s in
  let! d, s := parseDimensions (label t) s in
  let '(rows, columns, channels, dim_or_at) := d in
  if negb (String.eqb "_at" dim_or_at) || negb (hasNext 1 s)
    then generateError (msg "with statement expected ""at"" after: ") (previous s) else
  let! start, s := parseNextNumber s in
  PVal {| g_id := id; g_use := use; g_type := value data_type; g_label := value lab;
          g_rows := to_size_t rows; g_columns := to_size_t columns; g_channels := to_size_t channels;
          g_start := to_size_t start;
          g_count := to_size_t (to_size_t rows * to_size_t columns * to_size_t channels) |} s.

(** src/lang/parser/parser.hpp:158-160, the loop condition. *)
Definition in_location (t : token) : bool :=
  is_value "raw" t || is_label "_word" t || is_label "_slash" t || is_label "_backslash" t || is_label "_dot" t ||
  is_label "_colon" t || is_label "_number" t || is_label "_underscore" t.
Fixpoint location_loop (fuel : nat) (url : str) (s : stream) : presult str :=
  match fuel with
  | O => PFuel
  | S k => let! t, s := peek s in
           if in_location t then
             let! t, s := next s in
             if negb (hasNext 1 s) then PVal (url ++ value t)%list s else location_loop k (url ++ value t)%list s
           else PVal url s
  end.
(** src/lang/parser/parser.hpp:145-169 [parseLocation]. *)
Definition parseLocation (s : stream) : presult str :=
  let! scheme, s := next s in
  if negb (hasNext 3 s) then PRun ("Malformed url at: "%string, Some scheme) s else
  let! _, s := consume 3 s in
  location_loop (S (List.length (after s))) (value scheme ++ lit "://")%list s.

(** The executable statements. *)
Inductive variant := VFloat (text : str) | VString (s : str).
Inductive statement : Type :=
| SHelp (topic : str)
| SPrint (dataset : str) (raw : bool) (limit : Z)
| SCreateTask (type name goal dataset test : str)
| SCreateDataset (name location : str) (has_header : bool) (groups : list group)
| SExecuteDataset (task label dataset : str)
| SExecuteInput (task label : str) (inputs : list (str * list variant))
| SExit.

(** src/lang/parser/parser.hpp:50-56. *)
Definition parseHelpStatement (s : stream) : presult statement :=
  if negb (hasNext 1 s) then PVal (SHelp (lit "default")) s else
  let! t, s := next s in PVal (SHelp (value t)) s.

(** src/lang/parser/parser.hpp:58-75. *)
Definition print_usage : message := msg "usage: print <raw|pretty> <name> [limit <x>]".
Definition parsePrintStatement (s : stream) : presult statement :=
  if negb (hasNext 1 s) then generateError print_usage (previous s) else
  let! t, s := next s in
  if negb (is_value "raw" t) && negb (is_value "pretty" t) then generateError print_usage (previous s) else
  let raw := is_value "raw" t in
  let! name, s := next s in
  if negb (hasNext 1 s) then PVal (SPrint (value name) raw (-1)) s else
  let! p, s := peek s in
  if negb (is_label "_limit" p) then PVal (SPrint (value name) raw (-1)) s else
  let! _, s := next s in
  let! limit, s := parseNextNumber s in
  PVal (SPrint (value name) raw limit) s.

(** src/lang/parser/parser.hpp:225-227, 288-290, 488-490: the catch clause. *)
Definition catch_runtime {A} (x : presult A) : presult A :=
  match x with PRun m s => generateError m (previous s) | _ => x end.

(** src/lang/parser/parser.hpp:191-210. *)
Fixpoint task_with_loop (fuel : nat) (keyword : token) (goal test : str) (s : stream) : presult (str * str) :=
  match fuel with
  | O => PFuel
  | S k =>
    let! p, s := peek s in
    if negb (is_label "_with" p) then PVal (goal, test) s else
    let! _, s := next s in
    if negb (hasNext 1 s) then generateError (msg "create task with statement malformed: ") (Some keyword) else
    let! parameter, s := next s in
    if is_value "test" parameter then
      if negb (hasNext 1 s) then generateError (msg "create task with statement malformed: ") (Some parameter) else
      let! t, s := next s in task_with_loop k keyword goal (value t) s
    else if is_value "goal" parameter then
      if negb (hasNext 1 s) then generateError (msg "create task with statement malformed: ") (Some parameter) else
      let! t, s := next s in task_with_loop k keyword (value t) test s
    else generateError (msg "create task with statement malformed: ") (Some parameter)
  end.
(** src/lang/parser/parser.hpp:171-228. *)
Definition parseCreateTask (keyword : token) (s : stream) : presult statement :=
  catch_runtime (
    if negb (hasNext 1 s) then generateError (msg "create task requires a type: ") (Some keyword) else
    let! type, s := next s in
    if negb (hasNext 1 s) then generateError (msg "create task requires a name: ") (Some keyword) else
    let! name, s := next s in
    if negb (hasNext 1 s) then generateError (msg "create task requires a dataset: ") (Some keyword) else
    let! gt, s := task_with_loop (S (List.length (after s))) keyword (lit "accuracy") [] s in
    let (goal, test) := gt in
    if negb (hasNext 1 s) then generateError (msg "create task using statement malformed: ") (Some keyword) else
    let! usingToken, s := next s in
    if negb (is_label "_using" usingToken) || negb (hasNext 1 s)
      then generateError (msg "create task using statement malformed: ") (Some usingToken) else
    let! dataset, s := next s in
    PVal (SCreateTask (value type) (value name) goal (value dataset) test) s).

(** src/lang/parser/parser.hpp:252-276. *)
Fixpoint dataset_with_loop (fuel : nat) (has_header : bool) (groups : list group) (s : stream) : presult (bool * list group) :=
  match fuel with
  | O => PFuel
  | S k =>
    if negb (hasNext 1 s) then PVal (has_header, groups) s else
    let! p, s := peek s in
    if negb (is_label "_with" p) then PVal (has_header, groups) s else
    let! _, s := consume 1 s in
    if negb (hasNext 1 s) then generateError (msg "with statement is incomplete ") (previous s) else
    let! withType, s := next s in
    if is_value "header" withType then dataset_with_loop k true groups s
    else if is_value "expected" withType || is_value "given" withType then
      let! g, s := parseColumnGroup (Z.of_nat (List.length groups) + 1) (value withType) s in
      dataset_with_loop k has_header (groups ++ [g]) s
    else generateError ("Unknown with type: "%string, Some withType) (previous s)
  end.
(** src/lang/parser/parser.hpp:230-291. *)
Definition parseCreateDataset (keyword : token) (s : stream) : presult statement :=
  catch_runtime (
    if negb (hasNext 1 s) then generateError (msg "create dataset requires a name: ") (Some keyword) else
    let! datasetName, s := next s in
    if negb (is_label "_word" datasetName) then generateError (msg "create dataset name is invalid: ") (Some datasetName) else
    if negb (hasNext 2 s) then generateError (msg "create dataset requires a location: ") (Some datasetName) else
    let! hg, s := dataset_with_loop (S (List.length (after s))) false [] s in
    let (has_header, groups) := hg in
    if negb (hasNext 1 s) then generateError (msg "missing using statement after: ") (previous s) else
    let! usingKeyword, s := next s in
    if negb (is_label "_using" usingKeyword) then generateError (msg "Invalid token at: ") (Some usingKeyword) else
    let! location, s := parseLocation s in
    PVal (SCreateDataset (value datasetName) location has_header groups) s).

(** src/lang/parser/parser.hpp:293-306. *)
Definition parseCreateStatement (s : stream) : presult statement :=
  if negb (hasNext 1 s) then generateError (msg "Incomplete statement at: ") (previous s) else
  let! t, s := next s in
  if is_label "_dataset" t then parseCreateDataset t s else
  if is_label "_task" t then parseCreateTask t s else
  generateError (msg "Unsupported object for create: ") (Some t).

Section Input.
(** [std::stof] on the texts of number tokens fails without a digit, and when the number does not fit a
    [float]; which those are is left open. *)
Context (in_range : str -> bool).
Definition stof_ok (s : str) : bool := existsb isdigit s && in_range s.

(** src/lang/parser/parser.hpp:349-355, 367-373. *)
Definition token_value (t : token) (s : stream) : presult variant :=
  if is_label "_number" t then if stof_ok (value t) then PVal (VFloat (value t)) s else PLog s
  else if is_label "_string" t then match unescapeString (value t) with Ok v => PVal (VString v) s | _ => PLog s end
  else PVal (VString (value t)) s.

(** src/lang/parser/parser.hpp:341-357. *)
Fixpoint list_loop (fuel : nat) (values : list variant) (s : stream) : presult (list variant) :=
  match fuel with
  | O => PFuel
  | S k =>
    if negb (hasNext 1 s) then PVal values s else
    let! p, s := peek s in
    if is_label "_close_bracket" p then PVal values s else
    let! t, s := next s in
    if is_label "_comma" t then list_loop k values s else
    let! v, s := token_value t s in
    list_loop k (values ++ [v]) s
  end.

(** [inputs\[key\] = next_value] on an [unordered_map]. *)
Definition put (m : list (str * list variant)) (key : str) (v : list variant) : list (str * list variant) :=
  filter (fun q => negb (seq_eqb (fst q) key)) m ++ [(key, v)].

(** src/lang/parser/parser.hpp:319-382. *)
Fixpoint input_loop (fuel : nat) (inputs : list (str * list variant)) (s : stream) : presult (list (str * list variant)) :=
  match fuel with
  | O => PFuel
  | S k =>
    if negb (hasNext 1 s) then PVal inputs s else
    let! p, s := peek s in
    if is_label "_close_parenthesis" p then PVal inputs s else
    let! next_key, s := next s in
    if negb (is_label "_word" next_key) && negb (is_label "_string" next_key) then PRun (msg "Invalid input key") s else
    let! key, s := (if is_label "_string" next_key
                    then match unescapeString (value next_key) with Ok v => PVal v s | _ => PLog s end
                    else PVal (value next_key) s) in
    if negb (hasNext 1 s) then PRun (msg "Invalid input key") s else
    let! p, s := peek s in
    if negb (is_label "_colon" p) then PRun (msg "Invalid input key") s else
    let! _, s := next s in
    if negb (hasNext 1 s) then PRun (msg "Invalid input value") s else
    let! p, s := peek s in
    if negb (is_label "_string" p) && negb (is_label "_word" p) && negb (is_label "_number" p) && negb (is_label "_open_bracket" p)
      then PRun (msg "Invalid input value") s else
    let! v, s := (if is_label "_open_bracket" p then
                    let! _, s := next s in
                    let! values, s := list_loop (S (List.length (after s))) [] s in
                    if negb (hasNext 1 s) then PRun (msg "Invalid input value") s else
                    let! _, s := next s in PVal values s
                  else let! t, s := next s in let! v, s := token_value t s in PVal [v] s) in
    let inputs := put inputs (map tolower key) v in
    if hasNext 1 s then
      let! p, s := peek s in
      if is_label "_comma" p then let! _, s := next s in input_loop k inputs s else input_loop k inputs s
    else input_loop k inputs s
  end.

(** src/lang/parser/parser.hpp:308-390. *)
Definition parseInput (s : stream) : presult (list (str * list variant)) :=
  if negb (hasNext 1 s) then PRun (msg "Missing input content") s else
  let! inputToken, s := next s in
  if negb (is_label "_open_parenthesis" inputToken) then PRun (msg "Missing input content") s else
  let! inputs, s := input_loop (S (List.length (after s))) [] s in
  if negb (hasNext 1 s) then PRun (msg "Input incomplete, missing closing parenthesis") s else
  let! p, s := peek s in
  if negb (is_label "_close_parenthesis" p) then PRun (msg "Input incomplete, missing closing parenthesis") s else
  let! _, s := next s in
  PVal inputs s.

(** src/lang/parser/parser.hpp:407-491. *)
Definition parseExecuteStatement (s : stream) : presult statement :=
  catch_runtime (
    if negb (hasNext 1 s) then generateError (msg "execute requires a type: ") (previous s) else
    let! executableType, s := next s in
    if negb (is_label "_task" executableType) then generateError (msg "task is the only valid executable right now: ") (Some executableType) else
    if negb (hasNext 1 s) then generateError (msg "execute requires a name: ") (previous s) else
    let! taskName, s := next s in
    if negb (is_label "_word" taskName) then generateError (msg "task name is invalid: ") (Some taskName) else
    let! lab, s := (if negb (hasNext 1 s) then PVal [] s else
      let! p, s := peek s in
      if negb (is_label "_with" p) then PVal [] s else
      let! _, s := consume 1 s in
      if negb (hasNext 1 s) then generateError (msg "with statement is incomplete ") (previous s) else
      let! withType, s := next s in
      if negb (is_label "_label" withType) then generateError (msg "with statement is invalid ") (Some withType) else
      if negb (hasNext 1 s) then generateError (msg "with statement is incomplete ") (previous s) else
      let! labelToken, s := next s in
      if negb (is_label "_word" labelToken) then generateError (msg "with statement is invalid ") (Some labelToken) else
      PVal (value labelToken) s) in
    if negb (hasNext 1 s) then generateError (msg "execute requires a dataset or input: ") (previous s) else
    let! usingKeyword, s := next s in
    if negb (is_label "_using" usingKeyword) then generateError (msg "Invalid token at: ") (Some usingKeyword) else
    if negb (hasNext 1 s) then generateError (msg "execute requires a dataset or input: ") (previous s) else
    let! t, s := next s in
    if is_label "_dataset" t then
      if negb (hasNext 1 s) then generateError (msg "execute requires a dataset name: ") (previous s) else
      let! datasetName, s := next s in
      if negb (is_label "_word" datasetName) then generateError (msg "dataset name is invalid: ") (Some datasetName) else
      PVal (SExecuteDataset (value taskName) lab (value datasetName)) s
    else if is_label "_input" t then
      if negb (hasNext 1 s) then generateError (msg "execute requires an input: ") (previous s) else
      let! inputs, s := parseInput s in
      PVal (SExecuteInput (value taskName) lab inputs) s
    else generateError (msg "execute requires a dataset or input: ") (Some t)).

(** src/lang/parser/parser.hpp:497-530, one statement after its first token. *)
Definition parseStatement (first : token) (s : stream) : presult statement :=
  if is_label "_help" first then parseHelpStatement s else
  if is_label "_print" first then parsePrintStatement s else
  if is_label "_create" first then parseCreateStatement s else
  if is_label "_execute" first then parseExecuteStatement s else
  if is_label "_exit" first then PVal SExit s else
  generateError (msg "Unexpected token: ") (Some first).

(** src/lang/parser/parser.hpp:493-533 [parseCodeBlock]. *)
Fixpoint block_loop (fuel : nat) (children : list statement) (s : stream) : presult (list statement) :=
  match fuel with
  | O => PFuel
  | S k =>
    if negb (hasNext 1 s) then PVal children s else
    let! first, s := next s in
    if is_label "_newline" first then block_loop k children s else
    let! st, s := parseStatement first s in
    block_loop k (children ++ [st]) s
  end.
Definition parseCodeBlock (tokens : list token) : presult (list statement) :=
  block_loop (S (List.length tokens)) [] {| before := []; after := tokens |}.

(** src/lang/parser/parser.hpp:30-39 [parse]: [inr o] is the lexer's syntax error at offset [o]. *)
Definition parse (text : str) : presult (list statement) + nat :=
  match lex happyml_patterns text with
  | LexOk tokens => inl (parseCodeBlock tokens)
  | LexError o => inr o
  end.
End Input.
