(** The script language's tokens, without reference to the matchers. *)
From Coq Require Import Ascii String List Bool Arith NArith.
From Verif Require Import Chars.
Import ListNotations.

Definition letter (c : ascii) : Prop := isupper c = true \/ islower c = true.
Definition digit (c : ascii) : Prop := isdigit c = true.
(** Equal up to the case of letters. *)
Definition same_letter (a b : ascii) : Prop :=
  a = b \/ (isupper a = true /\ code b = (code a + 32)%N) \/ (isupper b = true /\ code a = (code b + 32)%N).
Definition same_word (s : str) (w : string) : Prop := Forall2 same_letter s (list_ascii_of_string w).

(** [string_body q b]: text between two quotes [q]: a backslash right before [q] makes one
    character with it, every other [q] is excluded. *)
Inductive string_body (q : ascii) : str -> Prop :=
| body_nil : string_body q []
| body_escape b : string_body q b -> string_body q (ascii_of_N 92 :: q :: b)
| body_char c b : c <> q -> (c = ascii_of_N 92 -> b <> [] /\ hd_error b <> Some q) -> string_body q b -> string_body q (c :: b).

Inductive lang : Type :=
| Keyword (w : string) | Comment | Quoted | Number | Word | Char (c : ascii).

Inductive in_lang : lang -> str -> Prop :=
| in_keyword w s : same_word s w -> in_lang (Keyword w) s
| in_comment s : ~ In NL s -> in_lang Comment ("#"%char :: s)
| in_quoted q b : q = DQ \/ q = ascii_of_N 39 -> string_body q b -> in_lang Quoted (q :: b ++ [q])
| in_number_whole s : Forall digit s -> in_lang Number s
| in_number_point s t : Forall digit s -> Forall digit t -> in_lang Number (s ++ "."%char :: t)
| in_word c s : letter c -> Forall (fun c => letter c \/ digit c \/ c = "_"%char) s -> in_lang Word (c :: s)
| in_char c : in_lang (Char c) [c].

(** Label, whether it is left out of the token list, and the texts of each kind of token, in
    order of precedence. *)
Definition kinds : list (string * bool * lang) :=
  (map (fun w => ("_" ++ w, false, Keyword w)%string)
     ["copy"; "create"; "delete"; "describe"; "execute"; "exit"; "help"; "list"; "move"; "print"; "refine"; "set";
      "accuracy"; "dataset"; "datasets"; "future"; "image"; "input"; "label"; "memory"; "number"; "speed"; "task"; "tasks";
      "text"; "at"; "expected"; "given"; "goal"; "header"; "limit"; "pretty"; "raw"; "starting"; "test"; "to"; "using"; "with"]%string ++
   [("_comment", true, Comment); ("_string", false, Quoted); ("_number", false, Number); ("_word", false, Word)]%string ++
   map (fun p => (fst p, false, Char (snd p)))
     [("_open_parenthesis", "("%char); ("_close_parenthesis", ")"%char); ("_open_bracket", "["%char); ("_close_bracket", "]"%char);
      ("_equal", "="%char); ("_colon", ":"%char); ("_slash", "/"%char); ("_dot", "."%char); ("_percent", "%"%char);
      ("_backslash", ascii_of_N 92); ("_double_quote", DQ); ("_single_quote", ascii_of_N 39); ("_comma", ","%char);
      ("_underscore", "_"%char)]%string ++
   map (fun p => (fst p, true, Char (snd p)))
     [("_newline", NL); ("_tab", ascii_of_N 9); ("_return", CR); ("_space", " "%char)]%string)%list.

(** [prefix_of rest s]: [s] is not empty and [rest] starts with it. *)
Definition prefix_of (rest s : str) : Prop := s <> [] /\ exists r, rest = s ++ r.

(** The next token of [rest] is [s], of the kind with number [i]: no kind has a longer prefix and no earlier
    kind contains [s]. *)
Definition next_token (rest : str) (i : nat) (k : string * bool * lang) (s : str) : Prop :=
  nth_error kinds i = Some k /\ prefix_of rest s /\ in_lang (snd k) s /\
  (forall k' s', In k' kinds -> prefix_of rest s' -> in_lang (snd k') s' -> List.length s' <= List.length s) /\
  (forall j k', j < i -> nth_error kinds j = Some k' -> ~ in_lang (snd k') s).

(** Characters with which some token begins. *)
Definition start_char (c : ascii) : Prop :=
  letter c \/ digit c \/
  In c ["#"; "("; ")"; "["; "]"; "="; ":"; "/"; "."; "%"; ","; "_"; " "]%char \/
  In c [ascii_of_N 92; DQ; ascii_of_N 39; NL; ascii_of_N 9; CR].

(** [tokens_of o rest l]: the text splits completely into tokens [l] (kind, text, offset). *)
Inductive tokens_of : nat -> str -> list (string * bool * lang * str * nat) -> Prop :=
| tokens_end o : tokens_of o [] []
| tokens_more o rest i k s r l :
    next_token rest i k s -> rest = s ++ r -> tokens_of (o + List.length s) r l ->
    tokens_of o rest ((k, s, o) :: l).
(** [stuck o rest o' ]: after some tokens the rest at offset [o'] begins with a character that
    starts no token. *)
Inductive stuck : nat -> str -> nat -> Prop :=
| stuck_here o c r : ~ start_char c -> stuck o (c :: r) o
| stuck_later o rest i k s r o' : next_token rest i k s -> rest = s ++ r -> stuck (o + List.length s) r o' -> stuck o rest o'.
