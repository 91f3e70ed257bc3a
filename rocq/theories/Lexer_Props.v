(** C35: the script lexer. *)
From Coq Require Import Ascii String List Bool Arith NArith Lia.
From Verif Require Import Chars Lexer_Model Lexer_Spec Lexer_Proofs.
Import ListNotations.

(** C35: for every text, either the whole text splits into tokens, each the longest possible at its
    place and of the earliest kind among those, and the token list is that splitting without the skipped
    kinds, with the right offsets; or the lexer reports the first place at which no token begins. *)
Theorem lex_correct :
  forall text,
    match lex happyml_patterns text with
    | LexOk ts => exists l, tokens_of 0 text l /\
        ts = map (fun '(k, s, o) => {| label := fst (fst k); value := s; offset := o |})
                 (filter (fun '(k, _, _) => negb (snd (fst k))) l)
    | LexError o => stuck 0 text o
    end.
Proof. intro text. exact (lex_loop_spec (List.length text) 0 text (Nat.le_refl _)). Qed.
Print Assumptions lex_correct.

(** C35: the splitting is unique, and a text that gets stuck has none: so [lex_correct] fixes the
    result completely. *)
Theorem lex_splitting_unique :
  forall text l, tokens_of 0 text l ->
    (forall l', tokens_of 0 text l' -> l' = l) /\ (forall o, ~ stuck 0 text o).
Proof.
  intros text l H. split.
  - intros l' H'. symmetry. exact (tokens_of_fun _ _ _ H _ H').
  - intros o S. exact (stuck_not_tokens _ _ _ S _ H).
Qed.
Print Assumptions lex_splitting_unique.

(** C35: tokens and skipped texts together are the text; every token is the part of the text at its
    offset. *)
Theorem lex_partition :
  forall text l, tokens_of 0 text l ->
    text = flat_map (fun x => snd (fst x)) l /\
    forall k s o, In (k, s, o) l -> firstn (List.length s) (skipn o text) = s /\ o + List.length s <= List.length text.
Proof.
  intros text l H. destruct (tokens_positions _ _ _ H) as [P1 P2]. split; [exact P1|].
  intros k s o Hin. destruct (P2 k s o Hin) as (_ & P3 & P4). rewrite Nat.sub_0_r in P3. auto.
Qed.
Print Assumptions lex_partition.

(** C35: every token is the text at its offset, and offsets grow. *)
Theorem lex_token_values :
  forall text ts, lex happyml_patterns text = LexOk ts ->
    forall t, In t ts -> value t <> [] /\ firstn (List.length (value t)) (skipn (offset t) text) = value t.
Proof.
  intros text ts E t Ht. pose proof (lex_correct text) as H. rewrite E in H. destruct H as (l & Hl & ->).
  apply in_map_iff in Ht as ([[k s] o] & <- & Hin). apply filter_In in Hin as [Hin _]. cbn [value offset].
  split; [|apply (proj2 (lex_partition text l Hl) k s o Hin)].
  clear E. revert Hin. induction Hl as [|o' rest i k' s' r l N E H IH]; [intros []|]. intros [Ein|Hin]; [|auto].
  injection Ein as <- <- <-. destruct N as (_ & [Hs _] & _). exact Hs.
Qed.
Print Assumptions lex_token_values.

(** Finding: a text with a minus sign outside strings and comments is a syntax error, so scripts cannot
    contain negative numbers or file names with a hyphen. *)
Theorem lex_minus_refuted :
  lex happyml_patterns (lit "using input (x: -1)") = LexError 16 /\
  lex happyml_patterns (lit "using file://my-data.csv") = LexError 15.
Proof. split; vm_compute; reflexivity. Qed.
Print Assumptions lex_minus_refuted.

(** Finding: a full stop is a [_number], never a [_dot]. *)
Theorem lex_dot_never :
  forall text ts, lex happyml_patterns text = LexOk ts -> forall t, In t ts -> label t <> "_dot"%string.
Proof.
  intros text ts E t Ht D. pose proof (lex_correct text) as H. rewrite E in H. destruct H as (l & Hl & ->).
  apply in_map_iff in Ht as ([[k s] o] & <- & Hin). apply filter_In in Hin as [Hin _]. cbn [label] in D.
  clear E. revert Hin. induction Hl as [|o' rest i k' s' r l N E H IH]; [intros []|]. intros [Ein|Hin]; [|auto].
  injection Ein as -> -> ->. destruct N as (Hi & _ & L & _ & Hmin).
  assert (Ek : k = ("_dot", false, Char "."%char)%string /\ i = 49).
  { clear - Hi D.
    assert (Li : i < List.length kinds) by (apply nth_error_Some; congruence).
    assert (F : forall j, j < 60 -> match nth_error kinds j with Some k => fst (fst k) = "_dot"%string -> k = ("_dot", false, Char "."%char)%string /\ j = 49 | None => True end).
    { intros j Hj. do 60 (destruct j as [|j]; [cbn; intro X; try discriminate X; split; reflexivity|]). lia. }
    specialize (F i Li). rewrite Hi in F. exact (F D). }
  destruct Ek as [-> ->]. cbn [snd] in L. inversion L; subst.
  apply (Hmin 40 ("_number", false, Number)%string); [lia|reflexivity|]. cbn [snd].
  apply (in_number_point [] []); constructor.
Qed.
Print Assumptions lex_dot_never.

(** Finding: a string cannot end with a backslash; the quote that should close it is taken as part
    of it, and a quote that is not closed becomes a token of its own. *)
Theorem lex_trailing_backslash_refuted :
  lex happyml_patterns [DQ; "a"%char; BSL; DQ] =
  LexOk [{| label := "_double_quote"; value := [DQ]; offset := 0 |}; {| label := "_word"; value := ["a"%char]; offset := 1 |};
         {| label := "_backslash"; value := [BSL]; offset := 2 |}; {| label := "_double_quote"; value := [DQ]; offset := 3 |}].
Proof. vm_compute. reflexivity. Qed.
Print Assumptions lex_trailing_backslash_refuted.

Example lex_ex :
  lex happyml_patterns (lit "Print raw datasets_1 # x") =
  LexOk [{| label := "_print"; value := lit "Print"; offset := 0 |}; {| label := "_raw"; value := lit "raw"; offset := 6 |};
         {| label := "_word"; value := lit "datasets_1"; offset := 10 |}].
Proof. vm_compute. reflexivity. Qed.
