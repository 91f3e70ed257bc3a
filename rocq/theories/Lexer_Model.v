(** Model of the script lexer: src/lang/lexer/lexer_patterns.hpp, src/lang/lexer/lexer.hpp,
    src/lang/lexer/token.hpp and src/lang/happyml_script_init.hpp:16-88.
    [isalpha] and friends are called with a possibly negative [char]; as in glibc's "C" locale
    such characters belong to no class. *)
From Coq Require Import Ascii String List Bool Arith NArith.
From Verif Require Import Chars Delimited_Model.
Import ListNotations.

Definition isalpha (c : ascii) : bool := isupper c || islower c.
Definition BSL : ascii := ascii_of_N 92.
Definition SQ : ascii := ascii_of_N 39.

(** The matcher classes (src/lang/lexer/lexer_patterns.hpp:55-96, 98-135, 176-289). *)
Inductive matcher : Type :=
| MAny (l : list matcher)
| MAll (l : list matcher)
| MOptional (m : matcher)
| MRepeat (m : matcher)
| MClass (f : ascii -> bool)
| MNotText (s : str)
| MText (s : str) (caseInsensitive : bool).

(** src/lang/lexer/lexer_patterns.hpp:106-117, [zeroOrMore]: repeats until there is no match. *)
Fixpoint repeat_loop (f : str -> option nat) (fuel : nat) (rest : str) : nat :=
  match fuel with
  | O => O
  | S k => match f rest with Some n => n + repeat_loop f k (skipn n rest) | None => O end
  end.

(** [match(text, offset, text.length())]; [rest] is the text from [offset] on and the result the
    matched length. The repetition is given one round per remaining character. *)
Fixpoint run (m : matcher) (rest : str) {struct m} : option nat :=
  match m with
  | MAny l => (fix any l := match l with
                            | [] => None
                            | p :: r => match run p rest with Some n => Some n | None => any r end
                            end) l
  | MAll l => (fix all l combined rest := match l with
                            | [] => Some combined
                            | p :: r => match run p rest with
                                        | Some n => all r (combined + n) (skipn n rest)
                                        | None => None
                                        end
                            end) l O rest
  | MOptional p => match run p rest with Some n => Some n | None => Some O end
  | MRepeat p => Some (repeat_loop (run p) (List.length rest) rest)
  | MClass f => match rest with c :: _ => if f c then Some 1 else None | [] => None end
  | MNotText s => match rest with
                  | [] => None
                  | _ :: _ => if seq_eqb (firstn (List.length s) rest) s then None else Some (List.length s)
                  end
  | MText s ci => if Nat.leb (List.length s) (List.length rest) &&
                     seq_eqb (if ci then map tolower (firstn (List.length s) rest) else firstn (List.length s) rest)
                             (if ci then map tolower s else s)
                  then Some (List.length s) else None
  end.

(** [Pattern] (src/lang/lexer/lexer_patterns.hpp:137-174). *)
Record pattern := { p_label : string; p_skip : bool; p_matcher : matcher }.

(** src/lang/lexer/lexer_patterns.hpp:292-306. *)
Definition createToken (label keyword : string) : pattern :=
  {| p_label := label; p_skip := false; p_matcher := MText (lit keyword) true |}.
Definition createKeywordToken (keyword : string) : pattern := createToken ("_" ++ keyword) keyword.
Definition createSkippedToken (label : string) (text : str) : pattern :=
  {| p_label := label; p_skip := true; p_matcher := MText text true |}.
(** src/lang/lexer/lexer_patterns.hpp:308-317. *)
Definition createCommentPattern : pattern :=
  {| p_label := "_comment"; p_skip := true;
     p_matcher := MAll [MText (lit "#") true; MRepeat (MNotText [NL])] |}.
(** src/lang/lexer/lexer_patterns.hpp:319-330. *)
Definition createStringPatternMatcher (q : ascii) : matcher :=
  MAll [MText [q] true; MRepeat (MAny [MText [BSL; q] false; MNotText [q]]); MText [q] true].
(** src/lang/lexer/lexer_patterns.hpp:332-339. *)
Definition createStringPattern : pattern :=
  {| p_label := "_string"; p_skip := false;
     p_matcher := MAny [createStringPatternMatcher DQ; createStringPatternMatcher SQ] |}.
(** src/lang/lexer/lexer_patterns.hpp:341-350. *)
Definition word_body (c : ascii) : bool := isalnum c || ceq c "_"%char.
Definition createWordPattern : pattern :=
  {| p_label := "_word"; p_skip := false; p_matcher := MAll [MClass isalpha; MRepeat (MClass word_body)] |}.
(** src/lang/lexer/lexer_patterns.hpp:352-361. *)
Definition createNumberPattern : pattern :=
  {| p_label := "_number"; p_skip := false;
     p_matcher := MAll [MRepeat (MClass isdigit); MOptional (MText (lit ".") false); MRepeat (MClass isdigit)] |}.

(** src/lang/happyml_script_init.hpp:20-84. *)
Definition keywords : list string :=
  ["copy"; "create"; "delete"; "describe"; "execute"; "exit"; "help"; "list"; "move"; "print"; "refine"; "set";
   "accuracy"; "dataset"; "datasets"; "future"; "image"; "input"; "label"; "memory"; "number"; "speed"; "task"; "tasks";
   "text"; "at"; "expected"; "given"; "goal"; "header"; "limit"; "pretty"; "raw"; "starting"; "test"; "to"; "using"; "with"]%string.
Definition punctuation : list (string * ascii) :=
  [("_open_parenthesis", "("%char); ("_close_parenthesis", ")"%char); ("_open_bracket", "["%char); ("_close_bracket", "]"%char);
   ("_equal", "="%char); ("_colon", ":"%char); ("_slash", "/"%char); ("_dot", "."%char); ("_percent", "%"%char); ("_backslash", BSL);
   ("_double_quote", DQ); ("_single_quote", SQ); ("_comma", ","%char); ("_underscore", "_"%char)]%string.
Definition TAB : ascii := ascii_of_N 9.
Definition skipped : list (string * ascii) :=
  [("_newline", NL); ("_tab", TAB); ("_return", CR); ("_space", " "%char)]%string.
Definition happyml_patterns : list pattern :=
  (map createKeywordToken keywords ++
   [createCommentPattern; createStringPattern; createNumberPattern; createWordPattern] ++
   map (fun p => {| p_label := fst p; p_skip := false; p_matcher := MText [snd p] true |}) punctuation ++
   map (fun p => createSkippedToken (fst p) [snd p]) skipped)%list.

(** [Token] (src/lang/lexer/token.hpp:18-84). Not kept: the source name and the line index (always
    0); the length is the length of the value. *)
Record token := { label : string; value : str; offset : nat }.

(** src/lang/lexer/lexer.hpp:82-91 [findLongestMatch], with src/lang/lexer/lexer_patterns.hpp:146-160:
    the pattern and the length. *)
Definition better (rest : str) (best : option (pattern * nat)) (p : pattern) : option (pattern * nat) :=
  match run (p_matcher p) rest with
  | None => best
  | Some n => match best with
              | None => Some (p, n)
              | Some (_, m) => if Nat.ltb m n then Some (p, n) else best
              end
  end.
Definition findLongestMatch (patterns : list pattern) (rest : str) : option (pattern * nat) :=
  fold_left (better rest) patterns None.

(** src/lang/lexer/lexer.hpp:47-77 [lex]: the tokens, or the offset of the syntax error. One round per
    character is enough, as every round but the last moves on by at least one. *)
Inductive lex_result := LexOk (tokens : list token) | LexError (at_offset : nat).
Fixpoint lex_loop (patterns : list pattern) (fuel offset : nat) (rest : str) : lex_result :=
  match rest, fuel with
  | [], _ => LexOk []
  | _ :: _, O => LexError offset
  | _ :: _, S k =>
    match findLongestMatch patterns rest with
    | None => LexError offset
    | Some (_, O) => LexError offset
    | Some (p, n) =>
      match lex_loop patterns k (offset + n) (skipn n rest) with
      | LexOk ts => LexOk (if p_skip p then ts else {| label := p_label p; value := firstn n rest; offset := offset |} :: ts)
      | e => e
      end
    end
  end.
Definition lex (patterns : list pattern) (text : str) : lex_result := lex_loop patterns (List.length text) 0 text.
