(** C36: the parser. *)
From Coq Require Import Ascii String List Bool Arith NArith ZArith Lia.
From Verif Require Import Chars Outcome Lexer_Model Lexer_Spec Lexer_Proofs Lexer_Props Literal_Model Literal_Props
  Parser_Model Parser_Spec Parser_Proofs Parser_Safety.
Import ListNotations.

Section Lift.
Context (rd : str -> bool) (u1 u2 : str -> str -> Prop).
Definition agree (ts : list token) : Prop := forall t, In t ts -> kind "_string" t -> forall v, u1 (value t) v -> u2 (value t) v.
Lemma agree_app a b : agree (a ++ b) -> agree a /\ agree b.
Proof. intro H. split; intros t Ht; apply H; apply in_or_app; auto. Qed.
Lemma agree_cons t b : agree (t :: b) -> (kind "_string" t -> forall v, u1 (value t) v -> u2 (value t) v) /\ agree b.
Proof. intro H. split; [apply H; left; reflexivity|intros x Hx; apply H; right; exact Hx]. Qed.
Lemma lift_value t v : agree [t] -> value_of rd u1 t v -> value_of rd u2 t v.
Proof.
  intros A [N R|w Q U|N Q]; [apply value_number; assumption| |apply value_other; assumption].
  apply value_string; [exact Q|]. apply (A t); [left; reflexivity|exact Q|exact U].
Qed.
Lemma agree_one t ts : In t ts -> agree ts -> agree [t].
Proof. intros Ht A x [<-|[]]. apply A, Ht. Qed.
Lemma agree_sub ts us : incl ts us -> agree us -> agree ts.
Proof. intros Hs A x Hx. apply A, Hs, Hx. Qed.
Lemma lift_items ts vs : list_items rd u1 ts vs -> agree ts -> list_items rd u2 ts vs.
Proof.
  induction 1 as [|t ts vs M L IH|t ts v vs M C V L IH]; intro A.
  - constructor.
  - apply items_comma; [exact M|]. apply IH. apply (agree_sub _ (t :: ts)); [intros x Hx; right; exact Hx|exact A].
  - apply items_value; [exact M|exact C| |].
    + apply lift_value; [|exact V]. apply (agree_one t (t :: ts)); [left; reflexivity|exact A].
    + apply IH. apply (agree_sub _ (t :: ts)); [intros x Hx; right; exact Hx|exact A].
Qed.
Lemma lift_entry ts vs : entry_value rd u1 ts vs -> agree ts -> entry_value rd u2 ts vs.
Proof.
  intros [t v K V|o ts' cl vs' O L C] A.
  - apply entry_single; [exact K|apply lift_value; assumption].
  - apply entry_list; [exact O| |exact C]. apply lift_items; [exact L|]. apply (agree_sub _ (o :: ts' ++ [cl])); [|exact A].
    intros x Hx. right. apply in_or_app. left. exact Hx.
Qed.
Lemma lift_key t k : key_text u1 t k -> agree [t] -> key_text u2 t k.
Proof. intros [W|v Q U] A; [apply key_word, W|apply key_string; [exact Q|apply (A t); [left; reflexivity|exact Q|exact U]]]. Qed.
Ltac inc A := eapply agree_sub; [|exact A]; let x := fresh in let H := fresh in intros x H; cbn [In] in *; rewrite ?in_app_iff; cbn [In]; rewrite ?in_app_iff; cbn [In]; tauto.
Lemma lift_entries ts es : entries rd u1 ts es -> agree ts -> entries rd u2 ts es.
Proof.
  induction 1 as [|k key c vts vs m ts es K Co V M L IH|k key c vts vs ts es K Co V L IH]; intro A.
  - constructor.
  - apply entries_comma; [apply lift_key; [exact K|inc A]|exact Co|apply lift_entry; [exact V|inc A]|exact M|apply IH; inc A].
  - apply entries_plain; [apply lift_key; [exact K|inc A]|exact Co|apply lift_entry; [exact V|inc A]|apply IH; inc A].
Qed.
Lemma lift_spells st ts r : spells rd u1 st ts r -> agree ts -> spells rd u2 st ts r.
Proof.
  intros H A. destruct H; try (constructor; assumption).
  apply spells_execute_input; try assumption. apply lift_entries; [assumption|inc A].
Qed.
Lemma lift_script sts ts : script rd u1 sts ts -> agree ts -> script rd u2 sts ts.
Proof.
  induction 1 as [|t sts ts N H IH|st sts ts r Sp H IH]; intro A.
  - constructor.
  - apply script_newline; [exact N|apply IH; inc A].
  - apply agree_app in A as [A1 A2]. apply script_statement; [apply lift_spells; assumption|apply IH; exact A2].
Qed.
End Lift.

(** String tokens of a script are quoted strings. *)
Lemma lexed_string text ts t :
  lex happyml_patterns text = LexOk ts -> In t ts -> kind "_string" t -> in_lang Quoted (value t).
Proof.
  intros E Ht K. pose proof (lex_correct text) as H. rewrite E in H. destruct H as (l & Hl & ->). clear E.
  apply in_map_iff in Ht as ([[k s] o] & <- & Hin). apply filter_In in Hin as [Hin _]. unfold kind in K. cbn [label] in K. cbn [value].
  induction Hl as [|o' rest i k' s' r l N E H IH]; [destruct Hin|]. destruct Hin as [Ein|Hin]; [|auto].
  injection Ein as -> -> ->. destruct N as (Hi & _ & L & _). apply nth_error_In in Hi.
  assert (F : Forall (fun k => String.eqb (fst (fst k)) "_string" = true -> snd k = Quoted) kinds).
  { repeat (constructor; [let X := fresh in intro X; try discriminate X; reflexivity|]). constructor. }
  rewrite Forall_forall in F. specialize (F k Hi). rewrite K in F. rewrite (F eq_refl) in L. exact L.
Qed.
Lemma unescape_text text ts t v :
  lex happyml_patterns text = LexOk ts -> In t ts -> kind "_string" t -> (unescapeString (value t) = Ok v <-> string_text (value t) v).
Proof.
  intros E Ht K. pose proof (lexed_string _ _ _ E Ht K) as L. inversion L as [| |q b Hq B Ev| | | |].
  destruct (string_literal_value q b Hq B) as (w & U & Sf). assert (Nq : q <> ascii_of_N 92) by (destruct Hq as [->| ->]; discriminate).
  rewrite U. split.
  - intro Hw. injection Hw as <-. exists q, b. auto.
  - intros (q' & b' & _ & E' & Sf'). injection E' as <- E'. apply app_inj_tail in E' as [<- _]. f_equal.
    symmetry. exact (stands_for_unique q b w Nq Sf v Sf').
Qed.

(** C36: parsing a script succeeds exactly when its tokens are a sequence of statements, and then yields these
    statements; [in_range] says which number texts fit a [float]. *)
Theorem parse_accepts :
  forall in_range text sts s,
    parse in_range text = inl (PVal sts s) <->
    exists ts, lex happyml_patterns text = LexOk ts /\ s = {| before := rev ts; after := [] |} /\
      script (fun x => existsb isdigit x && in_range x) string_text sts ts.
Proof.
  intros in_range text sts s. unfold parse. destruct (lex happyml_patterns text) as [ts|o] eqn:E.
  2:{ split; [discriminate|intros (ts & H & _); discriminate]. }
  split.
  - intro H. injection H as H. apply code_block_spec in H as [H ->]. exists ts. split; [reflexivity|]. split; [reflexivity|].
    refine (lift_script _ _ _ _ _ H _). intros t Ht K v. apply (unescape_text text ts t v E Ht K).
  - intros (ts' & H & -> & Sc). injection H as <-. f_equal. apply code_block_spec. split; [|reflexivity].
    refine (lift_script _ _ _ _ _ Sc _). intros t Ht K v. apply (unescape_text text ts t v E Ht K).
Qed.
Print Assumptions parse_accepts.

(** C36: a token sequence has at most one reading as a sequence of statements. *)
Theorem script_unique :
  forall in_range text ts sts1 sts2, lex happyml_patterns text = LexOk ts ->
    script (fun x => existsb isdigit x && in_range x) string_text sts1 ts ->
    script (fun x => existsb isdigit x && in_range x) string_text sts2 ts -> sts1 = sts2.
Proof.
  intros in_range text ts sts1 sts2 E H1 H2.
  pose proof (proj2 (parse_accepts in_range text sts1 _) (ex_intro _ ts (conj E (conj eq_refl H1)))) as P1.
  pose proof (proj2 (parse_accepts in_range text sts2 _) (ex_intro _ ts (conj E (conj eq_refl H2)))) as P2.
  rewrite P1 in P2. injection P2 as P2. exact P2.
Qed.
Print Assumptions script_unique.

(** C36: parsing always ends, without undefined behaviour, in one of these ways: the statements of all tokens; an
    error that names a token of the script; a [logic_error] at the end of the script or at a number that does not fit;
    a [runtime_error] after "limit" without a readable number. *)
Theorem parse_total :
  forall in_range text,
    match parse in_range text with
    | inr o => stuck 0 text o
    | inl r => exists ts, lex happyml_patterns text = LexOk ts /\
        match r with
        | PVal _ s => after s = []
        | PErr e => In (e_token e) ts
        | PLog s => ts = rev (before s) ++ after s /\
            (after s = [] \/ exists t b, before s = t :: b /\ kind "_number" t /\ (existsb isdigit (value t) && in_range (value t))%bool = false)
        | PRun _ s => ts = rev (before s) ++ after s /\
            ((exists l b, before s = l :: b /\ kind "_limit" l /\ after s = []) \/
             (exists x l b, before s = x :: l :: b /\ kind "_limit" l /\ forall z, ~ int_token x z))
        | PUB | PFuel => False
        end
    end.
Proof.
  intros in_range text. unfold parse. pose proof (lex_correct text) as C. pose proof (lex_token_values text) as V.
  destruct (lex happyml_patterns text) as [ts|o] eqn:E; [|exact C]. clear C. exists ts. split; [reflexivity|].
  destruct (resr_block in_range (S (List.length ts)) [] {| before := []; after := ts |}) as [R1 R2].
  { unfold all. cbn [before after rev app]. apply Forall_forall. intros t Ht. apply (V ts eq_refl t Ht). }
  { cbn [after]. lia. }
  change (block_loop in_range (S (List.length ts)) [] {| before := []; after := ts |}) with (parseCodeBlock in_range ts) in *.
  assert (A : forall s, ext {| before := []; after := ts |} s -> ts = rev (before s) ++ after s).
  { intros s X. apply ext_all in X. unfold all in X. cbn [before after rev app] in X. symmetry. exact X. }
  destruct (parseCodeBlock in_range ts) as [sts s|e|m s|s| |] eqn:P; cbn [res] in R1.
  - apply code_block_spec in P as [_ ->]. reflexivity.
  - exact R1.
  - split; [apply A, R1|]. apply (R2 m s). reflexivity.
  - split; [apply A, R1|apply R1].
  - exact R1.
  - exact R1.
Qed.
Print Assumptions parse_total.

Definition yes (_ : str) : bool := true.
Definition outcome_of (text : string) : presult (list statement) + nat := parse yes (lit text).

Definition statements (text : string) : option (list statement) :=
  match outcome_of text with inl (PVal l _) => Some l | _ => None end.
Definition logic_error (text : string) : bool := match outcome_of text with inl (PLog _) => true | _ => false end.
Definition runtime_error (text : string) : bool := match outcome_of text with inl (PRun _ _) => true | _ => false end.
Definition error_at (text : string) : option string := match outcome_of text with inl (PErr e) => Some (label (e_token e)) | _ => None end.

(** A script that parses. *)
Example parse_ex :
  statements "print raw d limit 3 execute task t using input (A: 1, a: [x, 'y'])" =
    Some [SPrint (lit "d") true 3;
          SExecuteInput (lit "t") [] [(lit "a", [VString (lit "x"); VString (lit "y")])]].
Proof. vm_compute. reflexivity. Qed.

(** Finding: incomplete scripts make the parser throw instead of returning an error. *)
Theorem parse_errors_escape_refuted :
  logic_error "print raw" = true /\ logic_error "create task a b with goal c" = true /\
  runtime_error "print raw x limit y" = true /\ logic_error "execute task t using input (x: .)" = true.
Proof. repeat split; vm_compute; reflexivity. Qed.
Print Assumptions parse_errors_escape_refuted.

(** Findings: "help" takes the next statement's first word as its topic; the three tokens after a location's scheme
    are replaced by "://" unseen; a limit's fraction is dropped; "RAW" is the keyword for the lexer but not for the
    parser. *)
Theorem parse_surprises_refuted :
  statements "help exit" = Some [SHelp (lit "exit")] /\
  statements "create dataset d using a b c d e" = Some [SCreateDataset (lit "d") (lit "a://e") false []] /\
  statements "print raw x limit 2.9" = Some [SPrint (lit "x") true 2] /\
  error_at "print RAW x" = Some "_raw"%string.
Proof. repeat split; vm_compute; reflexivity. Qed.
Print Assumptions parse_surprises_refuted.
