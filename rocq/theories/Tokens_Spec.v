(** What the tokenizer keeps of a text, and what tokens look like. *)
From Coq Require Import Ascii String List Bool NArith.
From Verif Require Import Chars.
Import ListNotations.
Open Scope char_scope.

(** The text without carriage returns, with repetitions of one white-space character reduced to one
    and characters that are neither printable nor white space replaced by code 254.
    [last] is the preceding character that was not a carriage return. *)
Fixpoint normalised (last : ascii) (text : str) : str :=
  match text with
  | [] => []
  | c :: t =>
    if Ascii.eqb c CR then normalised last t
    else (if isspace c then (if Ascii.eqb c last then [] else [c])
          else if isprint c then [c] else [ascii_of_N 254]) ++ normalised c t
  end.

(** A token: one punctuation character, or a word with at most one white-space character in front. *)
Definition word_char (c : ascii) : Prop := isalnum c = true \/ c = "." \/ c = ascii_of_N 254.
Definition token_shape (tok : str) : Prop :=
  (exists c, tok = [c] /\ isprint c = true /\ isspace c = false /\ isalnum c = false) \/
  (exists ws w, tok = ws ++ w /\ tok <> [] /\ (ws = [] \/ exists c, ws = [c] /\ isspace c = true) /\
                Forall word_char w).

(** Texts nothing of which is dropped or replaced. *)
Fixpoint tidy (last : ascii) (text : str) : Prop :=
  match text with
  | [] => True
  | c :: t => c <> CR /\ (isspace c = true -> c <> last) /\ (isspace c = false -> isprint c = true) /\ tidy c t
  end.
