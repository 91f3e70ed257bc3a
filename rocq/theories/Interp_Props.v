(** C37: order of execution. *)
From Coq Require Import Ascii String List Bool Arith NArith ZArith Lia.
From Verif Require Import Chars Outcome Delimited_Model Lexer_Model Parser_Model Parser_Spec Parser_Props Interp_Model.
Import ListNotations.

Section Props.
Context {W : Type} (run : statement -> W -> event * W) (in_range : str -> bool).

(** [succeeds l w w']: the statements [l], run one after the other from [w], all succeed and lead to [w']. *)
Inductive succeeds : list statement -> W -> W -> Prop :=
| succeeds_nil w : succeeds [] w w
| succeeds_cons st l w w1 w2 e : exec run st w = (Return e true, w1) -> succeeds l w1 w2 -> succeeds (st :: l) w w2.

Lemma block_spec last sts w e w' :
  block_from run last sts w = (e, w') <->
  (exists ran w1, succeeds ran w w1 /\ sts = ran /\ w' = w1 /\
      e = (match rev ran with [] => last | SExit :: _ => Return true true | _ => Return false true end)) \/
  (exists ran st rest w1, sts = ran ++ st :: rest /\ succeeds ran w w1 /\ exec run st w1 = (e, w') /\
      forall b, e <> Return b true).
Proof.
  revert last w. induction sts as [|st sts IH]; intros last w; cbn [block_from].
  - split.
    + intro H. injection H as <- <-. left. exists [], w. repeat split. constructor.
    + intros [(ran & w1 & Sc & <- & -> & ->)|(ran & st & rest & w1 & E & _)]; [inversion Sc; reflexivity|destruct ran; discriminate].
  - assert (Ex : forall b w1, exec run st w = (Return b true, w1) -> Return b true = match st with SExit => Return true true | _ => Return false true end).
    { intros b w1 H. unfold exec in H. destruct st; try (injection H as <- _; reflexivity); destruct (run _ w) as [[? ?| |] ?]; try discriminate; injection H as <- -> _; reflexivity. }
    destruct (exec run st w) as [v w1] eqn:X. split.
    + intro H. destruct v as [b [|]| |].
      * apply IH in H as [(ran & w2 & Sc & -> & -> & ->)|(ran & st' & rest & w2 & -> & Sc & Y & N)].
        -- left. exists (st :: ran), w2. split; [econstructor; eassumption|]. repeat split. cbn [rev].
           rewrite (Ex b w1 eq_refl). destruct (rev ran) as [|x l] eqn:R; cbn [app]; [destruct st; reflexivity|reflexivity].
        -- right. exists (st :: ran), st', rest, w2. repeat split; [econstructor; eassumption|exact Y|exact N].
      * injection H as <- <-. right. exists [], st, sts, w. repeat split; [constructor|exact X|discriminate].
      * injection H as <- <-. right. exists [], st, sts, w. repeat split; [constructor|exact X|discriminate].
      * injection H as <- <-. right. exists [], st, sts, w. repeat split; [constructor|exact X|discriminate].
    + intros [(ran & w2 & Sc & <- & -> & ->)|(ran & st' & rest & w2 & E & Sc & Y & N)].
      * inversion Sc as [|? ? ? w3 ? b X' Sc']; subst. rewrite X in X'. injection X' as -> ->.
        apply IH. left. exists sts, w2. repeat split; [exact Sc'|]. cbn [rev]. rewrite (Ex b w3 eq_refl).
        destruct (rev sts); cbn [app]; [destruct st; reflexivity|reflexivity].
      * destruct ran as [|r0 ran].
        -- injection E as -> ->. inversion Sc; subst. rewrite X in Y. injection Y as -> ->.
           destruct e as [b [|]| |]; try reflexivity. exfalso. apply (N b). reflexivity.
        -- injection E as <- ->. inversion Sc as [|? ? ? w3 ? b X' Sc']; subst. rewrite X in X'. injection X' as -> ->.
           apply IH. right. exists ran, st', rest, w2. auto.
Qed.

(** C37: the statements of a script run in order, each in the state the previous one left, and none runs after the
    first that does not succeed. *)
(** Partial, C37: missing is that [exit] ends the script, see [exit_runs_on_refuted]. *)
Theorem block_in_order_partial :
  forall sts w e w', execute_block run sts w = (e, w') ->
    (succeeds sts w w' /\ exists b, e = Return b true) \/
    (exists ran st rest w1, sts = ran ++ st :: rest /\ succeeds ran w w1 /\ exec run st w1 = (e, w') /\ forall b, e <> Return b true).
Proof.
  intros sts w e w' H. apply block_spec in H as [(ran & w1 & Sc & -> & -> & ->)|H]; [left|right; exact H].
  split; [exact Sc|]. destruct (rev ran) as [|[] ?]; eauto.
Qed.

(** C37: conversely, what was just described is what happens. *)
Theorem block_complete_run :
  forall sts w w', succeeds sts w w' -> exists b, execute_block run sts w = (Return b true, w').
Proof.
  intros sts w w' H. destruct (execute_block run sts w) as [e w2] eqn:E. destruct (block_in_order_partial _ _ _ _ E) as [[Sc [b ->]]|N].
  - exists b. f_equal. clear E. revert w2 Sc. induction H as [|st l w w1 w3 x X H IH]; intros w2 Sc; [inversion Sc; reflexivity|].
    inversion Sc as [|? ? ? w4 ? y Y Sc']; subst. rewrite X in Y. injection Y as <- <-. apply IH, Sc'.
  - exfalso. destruct N as (ran & st & rest & w1 & -> & Sc & Y & N). clear E. revert w H Sc. induction ran as [|r ran IH]; intros w H Sc.
    + inversion Sc; subst. inversion H as [|? ? ? w4 ? y Z _]; subst. rewrite Y in Z. injection Z as -> _. apply (N y). reflexivity.
    + inversion Sc as [|? ? ? w4 ? y Z Sc']; subst. inversion H as [|? ? ? w5 ? y' Z' H']; subst. rewrite Z in Z'. injection Z' as <- <-.
      apply (IH w4 H' Sc').
Qed.

(** C37: a script with an error in any statement runs nothing. *)
Theorem parse_error_runs_nothing :
  forall text w, (forall sts s, parse in_range text <> inl (PVal sts s)) ->
    snd (interpretCommands run in_range text w) = w /\ fst (interpretCommands run in_range text w) <> Ok true.
Proof.
  intros text w H. unfold interpretCommands. destruct (parse in_range text) as [[sts s|e|m s|s| |]|o] eqn:P; try (split; [reflexivity|discriminate]).
  exfalso. apply (H sts s). reflexivity.
Qed.

(** C37: the session ends after a script exactly when all its statements succeed and the last one is "exit". *)
Theorem exit_ends_session :
  forall text sts s w, parse in_range text = inl (PVal sts s) ->
    (fst (interpretCommands run in_range text w) = Ok true <->
     exists l, sts = l ++ [SExit] /\ exists w', succeeds l w w').
Proof.
  intros text sts s w P. unfold interpretCommands. rewrite P. destruct (execute_block run sts w) as [e w'] eqn:E.
  apply block_spec in E as [(ran & w1 & Sc & -> & -> & ->)|(ran & st & rest & w1 & -> & Sc & X & N)].
  - destruct (rev ran) as [|x l] eqn:R.
    + apply (f_equal (@rev _)) in R. rewrite rev_involutive in R. subst ran. cbn. split; [discriminate|].
      intros (l & E & _). destruct l; discriminate.
    + apply (f_equal (@rev _)) in R. rewrite rev_involutive in R. cbn [rev] in R. subst ran.
      assert (Pre : exists w2, succeeds (rev l) w w2).
      { clear P. revert w Sc. induction (rev l) as [|y r IH]; intros w Sc; [exists w; constructor|].
        inversion Sc as [|? ? ? w3 ? b X Sc']; subst. destruct (IH _ Sc') as [w2 H2]. exists w2. econstructor; eassumption. }
      split.
      * intro H. exists (rev l). split; [|exact Pre]. destruct x; cbn in H; try discriminate. reflexivity.
      * intros (l' & E & _). apply app_inj_tail in E as [_ ->]. reflexivity.
  - split.
    + destruct e as [b s'| |]; cbn; try discriminate. intro H. injection H as ->. exfalso.
      unfold exec in X. destruct st; try (injection X as <- <-; apply (N true); reflexivity);
        destruct (run _ w1) as [[? ?| |] ?]; discriminate.
    + intros (l & E & w2 & Sl). exfalso.
      assert (G : exists r', l = ran ++ st :: r' \/ (l = ran /\ st = SExit)).
      { clear - E. revert l E. induction ran as [|x ran IH]; intros l E; destruct l as [|y l]; cbn in E.
        - injection E as -> _. exists []. right. auto.
        - injection E as -> ->. exists l. left. reflexivity.
        - injection E as _ E. destruct ran; discriminate.
        - injection E as -> E. destruct (IH _ E) as [r' [->|[-> ->]]]; exists r'; auto. }
      destruct G as [r' [->|[-> ->]]].
      * clear E P. revert w Sc Sl. induction ran as [|y ran IH]; intros w Sc Sl.
        -- inversion Sc; subst. inversion Sl as [|? ? ? w4 ? b Z _]; subst. rewrite X in Z. injection Z as -> _. apply (N b). reflexivity.
        -- inversion Sc as [|? ? ? w4 ? b Z Sc']; subst. inversion Sl as [|? ? ? w5 ? b' Z' Sl']; subst. rewrite Z in Z'. injection Z' as <- <-.
           apply (IH w4 Sc' Sl').
      * cbn in X. injection X as <- _. apply (N true). reflexivity.
Qed.

(** Finding: "exit" does not end the script: the statements after it run, and unless the last one is "exit" again the
    session goes on. *)
Theorem exit_runs_on_refuted :
  forall l r w w1, succeeds l w w1 -> execute_block run (l ++ SExit :: r) w = block_from run (Return true true) r w1.
Proof.
  intros l r w w1 H. unfold execute_block. generalize (Return false true) as last. induction H as [w|st l w w2 w3 e X H IH]; intro last.
  - reflexivity.
  - cbn [app block_from]. rewrite X. apply IH.
Qed.

(** Finding: a script file that fails does not keep the following ones from running. *)
Theorem files_go_on_refuted :
  forall t r w w', interpretCommands run in_range t w = (Ok false, w') -> run_files run in_range (t :: r) w = run_files run in_range r w'.
Proof. intros t r w w' H. cbn [run_files]. rewrite H. reflexivity. Qed.

(** Finding: in an interactive session a blank line is undefined behaviour. *)
Theorem blank_line_refuted :
  forall buffer l r w, Forall (fun c => isspace c = true) l -> interactive run in_range buffer (l :: r) w = (UB, w).
Proof.
  intros buffer l r w H. cbn [interactive]. unfold trimEnd. rewrite rev_involutive.
  assert (E : forall s : str, Forall (fun c => isspace c = true) s -> lstrip s = []).
  { induction 1 as [|c s Hc Hs IH]; [reflexivity|]. cbn [lstrip]. rewrite Hc. exact IH. }
  rewrite (E (rev l)); [reflexivity|]. apply Forall_rev, H.
Qed.

(** A command spread over lines that end with a backslash is run as one text. *)
Theorem continued_lines :
  forall ls last r w buffer c p, Forall (fun l => lstrip (rev (l ++ [BSL])) = rev (l ++ [BSL])) ls ->
    trimEnd last = p ++ [c] -> c <> BSL ->
    interactive run in_range buffer (map (fun l => l ++ [BSL]) ls ++ last :: r) w =
    match interpretCommands run in_range (buffer ++ flat_map (fun l => l ++ [NL]) ls ++ trimEnd last) w with
    | (Ok true, w') => (Ok tt, w') | (Ok false, w') => interactive run in_range [] r w' | (Throw, w') => (Throw, w') | (UB, w') => (UB, w')
    end.
Proof.
  intros ls last r w buffer c p F E N. revert buffer. induction F as [|l ls Hl F IH]; intro buffer.
  - cbn [map app flat_map interactive]. rewrite E, rev_app_distr. cbn [rev app]. destruct (ceq_spec c BSL) as [|_]; [contradiction|].
    rewrite rev_involutive. reflexivity.
  - cbn [map app interactive flat_map]. unfold trimEnd at 1. rewrite Hl, rev_involutive, rev_app_distr. cbn [rev app].
    destruct (ceq_spec BSL BSL) as [_|B]; [|congruence]. rewrite rev_involutive. rewrite IH. rewrite <- !app_assoc. reflexivity.
Qed.
End Props.
Print Assumptions block_in_order_partial.
Print Assumptions block_complete_run.
Print Assumptions parse_error_runs_nothing.
Print Assumptions exit_ends_session.
Print Assumptions exit_runs_on_refuted.
Print Assumptions files_go_on_refuted.
Print Assumptions blank_line_refuted.
Print Assumptions continued_lines.

(** Statements that record themselves; "print" of a data set called "bad" fails. *)
Definition log_run (st : statement) (w : list statement) : event * list statement :=
  (Return false (match st with SPrint d _ _ => negb (seq_eqb d (lit "bad")) | _ => true end), w ++ [st]).
Example interpret_ex :
  interpretCommands log_run yes (lit "help a print raw bad help b") [] =
    (Ok false, [SHelp (lit "a"); SPrint (lit "bad") true (-1)]) /\
  interpretCommands log_run yes (lit "help a exit") [] = (Ok true, [SHelp (lit "a")]) /\
  interpretCommands log_run yes (lit "exit help a") [] = (Ok false, [SHelp (lit "a")]).
Proof. repeat split; vm_compute; reflexivity. Qed.
