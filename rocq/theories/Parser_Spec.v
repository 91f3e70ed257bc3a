(** The script language's statements as token sequences, without reference to the parser. *)
From Coq Require Import Ascii String List Bool Arith NArith ZArith.
From Verif Require Import Chars Delimited_Model Lexer_Model Parser_Model Literal_Props.
Import ListNotations.

Definition kind (l : string) (t : token) : Prop := label t = l.
Definition says (w : string) (t : token) : Prop := value t = lit w.

(** [int_text s z]: [s] starts, after white space, with a decimal integer [z] that fits 32 bits. *)
Definition decimal (ds : str) : Z := fold_left (fun acc c => acc * 10 + (Z.of_N (code c) - 48))%Z ds 0%Z.
Inductive sign_text : str -> (Z -> Z) -> Prop :=
| no_sign : sign_text [] (fun z => z) | plus_sign : sign_text ["+"%char] (fun z => z) | minus_sign : sign_text ["-"%char] Z.opp.
Definition int_text (s : str) (z : Z) : Prop :=
  exists w g f ds r, s = w ++ g ++ ds ++ r /\ Forall (fun c => isspace c = true) w /\ sign_text g f /\
    ds <> [] /\ Forall (fun c => isdigit c = true) ds /\ (forall c r', r = c :: r' -> isdigit c = false) /\
    z = f (decimal ds) /\ (- 2 ^ 31 <= z < 2 ^ 31)%Z.
Definition int_token (t : token) (z : Z) : Prop := int_text (value t) z.

(** The dimensions of a column: nothing, (columns), (rows, columns) or (rows, columns, channels). *)
Inductive dimensions : list token -> Z -> Z -> Z -> Prop :=
| dims_none : dimensions [] 1 1 1
| dims_columns o a cl x : kind "_open_parenthesis" o -> int_token a x -> kind "_close_parenthesis" cl -> dimensions [o; a; cl] 1 x 1
| dims_rows o a k1 b cl x y : kind "_open_parenthesis" o -> int_token a x -> kind "_comma" k1 -> int_token b y ->
    kind "_close_parenthesis" cl -> dimensions [o; a; k1; b; cl] x y 1
| dims_channels o a k1 b k2 c cl x y z : kind "_open_parenthesis" o -> int_token a x -> kind "_comma" k1 -> int_token b y ->
    kind "_comma" k2 -> int_token c z -> kind "_close_parenthesis" cl -> dimensions [o; a; k1; b; k2; c; cl] x y z.

(** The clauses of "create dataset"; [n] columns were described before. *)
Inductive dataset_clauses : nat -> list token -> bool -> list group -> Prop :=
| clauses_end n : dataset_clauses n [] false []
| clauses_header n w h ts b gs : kind "_with" w -> says "header" h -> dataset_clauses n ts b gs -> dataset_clauses n (w :: h :: ts) true gs
| clauses_group n w u ty la ds at_ i ts b gs r c ch st :
    kind "_with" w -> says "given" u \/ says "expected" u ->
    dimensions ds r c ch -> kind "_at" at_ -> int_token i st ->
    dataset_clauses (S n) ts b gs ->
    dataset_clauses n ([w; u; ty; la] ++ ds ++ [at_; i] ++ ts) b
      ({| g_id := Z.of_nat n + 1; g_use := value u; g_type := value ty; g_label := value la;
          g_rows := r mod 2 ^ 64; g_columns := c mod 2 ^ 64; g_channels := ch mod 2 ^ 64; g_start := st mod 2 ^ 64;
          g_count := (r * c * ch) mod 2 ^ 64 |}%Z :: gs).

(** Tokens of which a location's path consists. *)
Definition path_token (t : token) : Prop :=
  says "raw" t \/ In (label t) ["_word"; "_slash"; "_backslash"; "_dot"; "_colon"; "_number"; "_underscore"]%string.
Definition starts_with (P : token -> Prop) (ts : list token) : Prop := exists t r, ts = t :: r /\ P t.

(** The clauses of "create task"; a later clause overrides an earlier one. *)
Inductive task_clauses : list token -> option str -> option str -> Prop :=
| task_end : task_clauses [] None None
| task_goal w k x ts g t : kind "_with" w -> says "goal" k -> task_clauses ts g t ->
    task_clauses (w :: k :: x :: ts) (match g with Some g => Some g | None => Some (value x) end) t
| task_test w k x ts g t : kind "_with" w -> says "test" k -> task_clauses ts g t ->
    task_clauses (w :: k :: x :: ts) g (match t with Some t => Some t | None => Some (value x) end).

(** What a quoted string stands for. *)
Definition string_text (l v : str) : Prop :=
  exists q b, (q = DQ \/ q = ascii_of_N 39) /\ l = q :: b ++ [q] /\ stands_for q b v.

(** [readable]: the number texts that fit a [float]; [unquote]: what a string token stands for. *)
Section Values.
Context (readable : str -> bool) (unquote : str -> str -> Prop).
Inductive value_of (t : token) : variant -> Prop :=
| value_number : kind "_number" t -> readable (value t) = true -> value_of t (VFloat (value t))
| value_string v : kind "_string" t -> unquote (value t) v -> value_of t (VString v)
| value_other : ~ kind "_number" t -> ~ kind "_string" t -> value_of t (VString (value t)).

(** The content of a bracketed list; commas are optional and may be repeated. *)
Inductive list_items : list token -> list variant -> Prop :=
| items_end : list_items [] []
| items_comma t ts vs : kind "_comma" t -> list_items ts vs -> list_items (t :: ts) vs
| items_value t ts v vs : ~ kind "_comma" t -> ~ kind "_close_bracket" t -> value_of t v -> list_items ts vs -> list_items (t :: ts) (v :: vs).

Inductive entry_value : list token -> list variant -> Prop :=
| entry_single t v : kind "_string" t \/ kind "_word" t \/ kind "_number" t -> value_of t v -> entry_value [t] [v]
| entry_list o ts cl vs : kind "_open_bracket" o -> list_items ts vs -> kind "_close_bracket" cl -> entry_value (o :: ts ++ [cl]) vs.

Inductive key_text (t : token) : str -> Prop :=
| key_word : kind "_word" t -> key_text t (value t)
| key_string v : kind "_string" t -> unquote (value t) v -> key_text t v.

(** The entries between the parentheses, up to the closing one; the comma after an entry is optional. *)
Inductive entries : list token -> list (str * list variant) -> Prop :=
| entries_end : entries [] []
| entries_comma k key c vts vs m ts es : key_text k key -> kind "_colon" c -> entry_value vts vs -> kind "_comma" m ->
    entries ts es -> entries (k :: c :: vts ++ m :: ts) ((map tolower key, vs) :: es)
| entries_plain k key c vts vs ts es : key_text k key -> kind "_colon" c -> entry_value vts vs ->
    entries ts es -> entries (k :: c :: vts ++ ts) ((map tolower key, vs) :: es).

(** The last entry of every key. *)
Fixpoint last_wins (es : list (str * list variant)) : list (str * list variant) :=
  match es with
  | [] => []
  | e :: r => if existsb (fun f => if list_eq_dec ascii_dec (fst f) (fst e) then true else false) r then last_wins r else e :: last_wins r
  end.

Inductive label_clause : list token -> str -> Prop :=
| label_none : label_clause [] []
| label_some w k n : kind "_with" w -> kind "_label" k -> kind "_word" n -> label_clause [w; k; n] (value n).

(** [spells st ts rest]: the tokens [ts], followed by [rest], are the statement [st]. *)
Inductive spells : statement -> list token -> list token -> Prop :=
| spells_help h : kind "_help" h -> spells (SHelp (lit "default")) [h] []
| spells_help_topic h t rest : kind "_help" h -> spells (SHelp (value t)) [h; t] rest
| spells_print p m n rest : kind "_print" p -> says "raw" m \/ says "pretty" m -> ~ starts_with (kind "_limit") rest ->
    spells (SPrint (value n) (if list_eq_dec ascii_dec (value m) (lit "raw") then true else false) (-1)) [p; m; n] rest
| spells_print_limit p m n l i z rest : kind "_print" p -> says "raw" m \/ says "pretty" m -> kind "_limit" l -> int_token i z ->
    spells (SPrint (value n) (if list_eq_dec ascii_dec (value m) (lit "raw") then true else false) z) [p; m; n; l; i] rest
| spells_task c k ty n ts g t u d rest : kind "_create" c -> kind "_task" k -> task_clauses ts g t -> kind "_using" u ->
    spells (SCreateTask (value ty) (value n) (match g with Some g => g | None => lit "accuracy" end) (value d)
              (match t with Some t => t | None => [] end))
      ([c; k; ty; n] ++ ts ++ [u; d]) rest
| spells_dataset c k n ts h gs u sc x1 x2 x3 path rest : kind "_create" c -> kind "_dataset" k -> kind "_word" n ->
    dataset_clauses 0 ts h gs -> kind "_using" u -> Forall path_token path -> ~ starts_with path_token rest ->
    (path = [] -> rest <> []) ->
    spells (SCreateDataset (value n) (value sc ++ lit "://" ++ List.concat (map value path)) h gs)
      ([c; k; n] ++ ts ++ [u; sc; x1; x2; x3] ++ path) rest
| spells_execute_dataset e k n ts lab u d dn rest : kind "_execute" e -> kind "_task" k -> kind "_word" n ->
    label_clause ts lab -> kind "_using" u -> kind "_dataset" d -> kind "_word" dn ->
    spells (SExecuteDataset (value n) lab (value dn)) ([e; k; n] ++ ts ++ [u; d; dn]) rest
| spells_execute_input e k n ts lab u i o es cl inputs rest : kind "_execute" e -> kind "_task" k -> kind "_word" n ->
    label_clause ts lab -> kind "_using" u -> kind "_input" i -> kind "_open_parenthesis" o -> entries es inputs ->
    kind "_close_parenthesis" cl ->
    spells (SExecuteInput (value n) lab (last_wins inputs)) ([e; k; n] ++ ts ++ [u; i; o] ++ es ++ [cl]) rest
| spells_exit e rest : kind "_exit" e -> spells SExit [e] rest.

Inductive script : list statement -> list token -> Prop :=
| script_end : script [] []
| script_newline t sts ts : kind "_newline" t -> script sts ts -> script sts (t :: ts)
| script_statement st sts ts rest : spells st ts rest -> script sts rest -> script (st :: sts) (ts ++ rest).
End Values.
