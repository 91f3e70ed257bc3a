(** Vocabulary for C09 and C10. *)
From Coq Require Import Ascii String List Bool Arith NArith.
From Verif Require Import Chars.
Import ListNotations.
Open Scope char_scope.

Definition white (c : ascii) : Prop := (code c = 32 \/ 9 <= code c <= 13)%N.

(** No white space at either end. *)
Definition trimmed (f : str) : Prop :=
  (forall c t, f = c :: t -> ~ white c) /\ (forall c t, f = t ++ [c] -> ~ white c).

(** Starts like a number: optional minus, then a digit, or a point and a digit, or inf/nan in
    any mixture of cases. *)
Definition digit (c : ascii) : Prop := (48 <= code c <= 57)%N.
Definition letter_of (l c : ascii) : Prop := c = l \/ (code c + 32 = code l)%N.
Definition numeric_start (f : str) : Prop :=
  exists u, (f = u \/ f = "-" :: u) /\
    ((exists d t, u = d :: t /\ digit d) \/
     (exists d t, u = "." :: d :: t /\ digit d) \/
     (exists a b c t, u = a :: b :: c :: t /\ letter_of "i" a /\ letter_of "n" b /\ letter_of "f" c) \/
     (exists a b c t, u = a :: b :: c :: t /\ letter_of "n" a /\ letter_of "a" b /\ letter_of "n" c)).

(** Fields that a delimited file can hold. *)
Record plain_field (delimiter : ascii) (f : str) : Prop := {
  pf_trimmed : trimmed f;
  pf_not_quoted : ~ exists a b, f = DQ :: a /\ f = b ++ [DQ];
  pf_no_double_quote : ~ exists a b, f = a ++ DQ :: DQ :: b;
  pf_number : numeric_start f -> ~ In delimiter f /\ ~ In DQ f /\ ~ In NL f /\ ~ In "<" f }.

(** Number of quote characters. *)
Definition quotes (s : str) : nat := count_occ ascii_dec s DQ.

(** The first [k] lines contain an even number of quotes and [k] is the least such number > 0. *)
Definition record_lines (lines : list str) (k : nat) : Prop :=
  1 <= k <= length lines /\ Nat.even (quotes (concat (firstn k lines))) = true /\
  forall j, 1 <= j < k -> Nat.even (quotes (concat (firstn j lines))) = false.

(** A delimiter counts when an even number of quotes precedes it. *)
Definition field_breaks (delimiter : ascii) (text : str) : nat :=
  length (filter (fun i => match nth_error text i with
                           | Some c => Ascii.eqb c delimiter && Nat.even (quotes (firstn i text))
                           | None => false
                           end) (seq 0 (length text))).

(** text of a list of lines joined by newlines *)
Fixpoint joined (ls : list str) : str :=
  match ls with [] => [] | [l] => l | l :: t => l ++ NL :: joined t end.
