(** Every way in which parsing can fail. *)
From Coq Require Import Ascii String List Bool Arith NArith ZArith Lia.
From Verif Require Import Chars Outcome Delimited_Model Lexer_Model Literal_Model Parser_Model Parser_Spec Parser_Proofs.
Import ListNotations.

Definition all (s : stream) : list token := rev (before s) ++ after s.
Definition ext (s s' : stream) : Prop := exists ts, after s = ts ++ after s' /\ before s' = rev ts ++ before s.
Definition inv (s : stream) : Prop := before s <> [] /\ Forall (fun t => value t <> []) (all s).

Lemma ext_refl s : ext s s. Proof. exists []. auto. Qed.
Lemma ext_trans s1 s2 s3 : ext s1 s2 -> ext s2 s3 -> ext s1 s3.
Proof. intros (t1 & A1 & B1) (t2 & A2 & B2). exists (t1 ++ t2). rewrite A1, A2, B2, B1, rev_app_distr, !app_assoc. auto. Qed.
Lemma ext_all s s' : ext s s' -> all s' = all s.
Proof. intros (t & A & B). unfold all. rewrite A, B, rev_app_distr, rev_involutive, <- app_assoc. reflexivity. Qed.
Lemma ext_inv s s' : ext s s' -> inv s -> inv s'.
Proof.
  intros E [I1 I2]. split; [|rewrite (ext_all _ _ E); exact I2]. destruct E as (t & _ & ->). destruct (rev t); [exact I1|discriminate].
Qed.
Lemma ext_len s s' : ext s s' -> List.length (after s') <= List.length (after s).
Proof. intros (t & -> & _). rewrite app_length. lia. Qed.

Section Safety.
Context (in_range : str -> bool).
Notation rd := (stof_ok in_range).

(** Where a [logic_error] is raised: at the end of the tokens or after an unreadable number. *)
Definition log_stop (s : stream) : Prop :=
  after s = [] \/ exists t b, before s = t :: b /\ kind "_number" t /\ rd (value t) = false.
Definition res {A} (s : stream) (V : A -> stream -> Prop) (x : presult A) : Prop :=
  match x with
  | PVal a s' => ext s s' /\ V a s'
  | PErr e => In (e_token e) (all s)
  | PRun _ s' => ext s s'
  | PLog s' => ext s s' /\ log_stop s'
  | PUB | PFuel => False
  end.

Lemma res_bind {A B} s V W (x : presult A) (f : A -> stream -> presult B) :
  inv s -> res s V x -> (forall a s1, ext s s1 -> inv s1 -> V a s1 -> res s1 W (f a s1)) -> res s W (pbind x f).
Proof.
  intros I H K. destruct x as [a s1|e|m s1|s1| |]; cbn [pbind res] in *; try exact H.
  destruct H as [E Va]. specialize (K a s1 E (ext_inv _ _ E I) Va). destruct (f a s1) as [b s2|e|m s2|s2| |]; cbn [res] in *; try exact K.
  - split; [eapply ext_trans; [exact E|apply K]|apply K].
  - rewrite (ext_all _ _ E) in K. exact K.
  - eapply ext_trans; eassumption.
  - split; [eapply ext_trans; [exact E|apply K]|apply K].
Qed.
Lemma res_val {A} s (V : A -> stream -> Prop) a : V a s -> res s V (PVal a s).
Proof. intro H. split; [apply ext_refl|exact H]. Qed.

Definition tok (s : stream) (t : token) (s' : stream) : Prop := In t (all s) /\ List.length (after s') < List.length (after s) /\ hd_error (before s') = Some t.
Lemma res_next s : res s (tok s) (next s).
Proof.
  unfold next. destruct s as [b [|t a]]; cbn [after before].
  - split; [apply ext_refl|left; reflexivity].
  - split; [exists [t]; split; reflexivity|]. repeat split; [unfold all; apply in_or_app; right; left; reflexivity|cbn [after List.length]; lia].
Qed.
Lemma res_peek s : res s (fun t s' => In t (all s) /\ s' = s) (peek s).
Proof.
  unfold peek. destruct s as [b [|t a]]; cbn [after].
  - split; [apply ext_refl|left; reflexivity].
  - split; [apply ext_refl|]. split; [unfold all; apply in_or_app; right; left; reflexivity|reflexivity].
Qed.
Lemma res_consume n s : inv s -> res s (fun _ s' => List.length (after s') + n = List.length (after s)) (consume n s).
Proof.
  revert s. induction n as [|n IH]; intros s I; cbn [consume].
  - apply res_val. lia.
  - unfold next. destruct s as [b [|t a]]; cbn [after before pbind].
    + split; [apply ext_refl|left; reflexivity].
    + assert (E : ext (st b (t :: a)) (st (t :: b) a)) by (exists [t]; split; reflexivity).
      specialize (IH _ (ext_inv _ _ E I)). destruct (consume n (st (t :: b) a)); cbn [res] in *.
      * destruct IH as [E' L]. split; [eapply ext_trans; eassumption|]. cbn [after List.length] in *. lia.
      * rewrite (ext_all _ _ E) in IH. exact IH.
      * eapply ext_trans; eassumption.
      * split; [eapply ext_trans; [exact E|apply IH]|apply IH].
      * exact IH.
      * exact IH.
Qed.
Lemma res_prev {A} s (V : A -> stream -> Prop) m : inv s -> res s V (generateError m (previous s)).
Proof.
  intros [N _]. destruct s as [[|t b] a]; [cbn in N; congruence|]. cbn. unfold all. cbn [before rev]. apply in_or_app. left. apply in_or_app. right. left. reflexivity.
Qed.
Lemma res_tok {A} s (V : A -> stream -> Prop) m t : In t (all s) -> res s V (generateError m (Some t)).
Proof. intro H. exact H. Qed.
Lemma res_run {A} s (V : A -> stream -> Prop) m : res s V (PRun m s).
Proof. apply ext_refl. Qed.
Lemma res_catch {A} s (V : A -> stream -> Prop) x : inv s -> res s V x -> res s V (catch_runtime x).
Proof.
  intros I H. destruct x as [a s1|e|m s1|s1| |]; cbn [catch_runtime res] in *; try exact H.
  pose proof (res_prev s1 V m (ext_inv _ _ H I)) as P. destruct (generateError m (previous s1)) eqn:G; cbn [res] in *.
  all: try (unfold generateError in G; destruct (previous s1); discriminate).
  - rewrite <- (ext_all _ _ H). exact P.
  - exact P.
Qed.

Definition any {A} (a : A) (s : stream) : Prop := True.
Definition shorter {A} (s : stream) (a : A) (s' : stream) : Prop := List.length (after s') < List.length (after s).

Lemma res_number s : inv s -> res s (shorter s) (parseNextNumber s).
Proof.
  intros [N _]. destruct s as [b [|t a]]; unfold parseNextNumber, next; cbn [after before previous hd_error].
  - destruct b as [|p b]; [cbn in N; congruence|]. apply ext_refl.
  - destruct (stoi (value t)).
    + split; [exists [t]; split; reflexivity|]. unfold shorter. cbn [after List.length]. lia.
    + cbn. exists [t]. split; reflexivity.
Qed.

Lemma hasNext_false s n : hasNext n s = false -> List.length (after s) < n.
Proof. unfold hasNext. intro H. apply Nat.leb_gt in H. exact H. Qed.

Ltac go_next := eapply res_bind; [assumption|apply res_next|intros ? ? ? ? (? & ? & ?)].
Ltac go_peek := eapply res_bind; [assumption|apply res_peek|let E := fresh "E" in intros ? ? E ? (? & ->); clear E].
Ltac go_num := eapply res_bind; [assumption|apply res_number; assumption|intros ? ? ? ? ?].
Ltac go_cons := eapply res_bind; [assumption|apply res_consume; assumption|intros ? ? ? ? ?; cbv beta in *].
Ltac intok := repeat match goal with |- In _ (all ?s1) => first [assumption|match goal with E : ext ?s s1 |- _ => rewrite (ext_all s s1 E) end] end.
Ltac step := match goal with
  | |- res _ _ (if _ then _ else _) => match goal with |- res _ _ (if ?c then _ else _) => destruct c eqn:? end
  | |- res _ _ (pbind (next _) _) => go_next
  | |- res _ _ (pbind (peek _) _) => go_peek
  | |- res _ _ (pbind (consume _ _) _) => go_cons
  | |- res _ _ (pbind (parseNextNumber _) _) => go_num
  | |- res _ _ (generateError _ (previous _)) => apply res_prev; assumption
  | |- res _ _ (generateError _ (Some _)) => apply res_tok; intok
  | |- res _ _ (PRun _ _) => apply res_run
  | |- res _ _ (PVal _ _) => apply res_val; try exact I
  end.
Ltac len := unfold shorter in *; repeat match goal with E : ext _ _ |- _ => apply ext_len in E end;
  repeat match goal with H : _ = true |- _ => clear H | H : _ = false |- _ => clear H | H : inv _ |- _ => clear H | H : In _ _ |- _ => clear H | H : hd_error _ = _ |- _ => clear H end; lia.

Lemma res_dims l s : inv s -> res s any (parseDimensions l s).
Proof. intro Iv. unfold parseDimensions. repeat step. Qed.
Lemma res_group id u s : inv s -> res s any (parseColumnGroup id u s).
Proof.
  intro Iv. unfold parseColumnGroup. repeat step. eapply res_bind; [assumption|apply res_dims; assumption|].
  intros [[[? ?] ?] ?] ? ? ? ?. repeat step.
Qed.
Lemma res_location k url s : inv s -> List.length (after s) < k -> res s any (location_loop k url s).
Proof.
  revert url s. induction k as [|k IH]; intros url s Iv L; [lia|]. cbn [location_loop]. repeat step. apply IH; [assumption|lia].
Qed.
Lemma res_parseLocation s : inv s -> res s any (parseLocation s).
Proof. intro Iv. unfold parseLocation. repeat step. apply res_location; [assumption|lia]. Qed.
Lemma res_task_with k kw g t s : inv s -> In kw (all s) -> List.length (after s) < k -> res s any (task_with_loop k kw g t s).
Proof.
  revert g t s. induction k as [|k IH]; intros g t s Iv K L; [lia|]. cbn [task_with_loop]. repeat step.
  - apply IH; [assumption|intok|lia].
  - apply IH; [assumption|intok|lia].
Qed.
Lemma res_dataset_with k h gs s : inv s -> List.length (after s) < k -> res s any (dataset_with_loop k h gs s).
Proof.
  revert h gs s. induction k as [|k IH]; intros h gs s Iv L; [lia|]. cbn [dataset_with_loop]. repeat step.
  - apply IH; [assumption|lia].
  - eapply res_bind; [assumption|apply res_group; assumption|]. intros ? ? ? ? _. apply IH; [assumption|len].
Qed.
Lemma res_create_task kw s : inv s -> In kw (all s) -> res s any (parseCreateTask kw s).
Proof.
  intros Iv K. unfold parseCreateTask. apply res_catch; [assumption|]. repeat step.
  eapply res_bind; [assumption|apply res_task_with; [assumption|intok|lia]|]. intros [g t] ? ? ? _. repeat step.
Qed.
Lemma res_create_dataset kw s : inv s -> In kw (all s) -> res s any (parseCreateDataset kw s).
Proof.
  intros Iv K. unfold parseCreateDataset. apply res_catch; [assumption|]. repeat step.
  eapply res_bind; [assumption|apply res_dataset_with; [assumption|lia]|]. intros [g t] ? ? ? _. repeat step.
  eapply res_bind; [assumption|apply res_parseLocation; assumption|]. intros. repeat step.
Qed.
Lemma res_create s : inv s -> res s any (parseCreateStatement s).
Proof.
  intro Iv. unfold parseCreateStatement. repeat step.
  - apply res_create_dataset; [assumption|intok].
  - apply res_create_task; [assumption|intok].
Qed.

Lemma unescape_ok t s : inv s -> In t (all s) -> exists v, unescapeString (value t) = Ok v.
Proof. intros [_ F] H. rewrite Forall_forall in F. specialize (F t H). unfold unescapeString. destruct (value t); [congruence|eauto]. Qed.
Lemma res_token_value t s : inv s -> In t (all s) -> hd_error (before s) = Some t -> res s any (token_value in_range t s).
Proof.
  intros Iv K P. unfold token_value. destruct (is_label "_number" t) eqn:N.
  - apply is_label_true in N. destruct (rd (value t)) eqn:R; [repeat step|]. split; [apply ext_refl|]. right. destruct s as [[|p b] a]; [discriminate|].
    injection P as ->. exists t, b. auto.
  - destruct (is_label "_string" t); [|repeat step]. destruct (unescape_ok t s Iv K) as [v ->]. repeat step.
Qed.
Lemma res_list k vs s : inv s -> List.length (after s) < k -> res s any (list_loop in_range k vs s).
Proof.
  revert vs s. induction k as [|k IH]; intros vs s Iv L; [lia|]. cbn [list_loop]. repeat step.
  - apply IH; [assumption|lia].
  - eapply res_bind; [assumption|apply res_token_value; [assumption|intok|assumption]|]. intros ? ? ? ? _. apply IH; [assumption|len].
Qed.
Lemma res_entry p s : inv s -> In p (all s) -> res s any (entry_loop_value in_range p s).
Proof.
  intros Iv K. unfold entry_loop_value. repeat step.
  - eapply res_bind; [assumption|apply res_list; [assumption|lia]|]. intros ? ? ? ? _. repeat step.
  - eapply res_bind; [assumption|apply res_token_value; [assumption|intok|assumption]|]. intros ? ? ? ? _. repeat step.
Qed.
Lemma res_input k m s : inv s -> List.length (after s) < k -> res s any (input_loop in_range k m s).
Proof.
  revert m s. induction k as [|k IH]; intros m s Iv L; [lia|]. rewrite input_loop_eq. repeat step.

  eapply res_bind with (V := any); [assumption| |].
  { match goal with |- context [is_label "_string" ?t] => destruct (is_label "_string" t); [|repeat step]; destruct (unescape_ok t s1) as [v ->] end;  [assumption|intok|repeat step]. }
  intros ? ? ? ? _. repeat step. eapply res_bind; [assumption|apply res_entry; [assumption|intok]|]. intros ? ? ? ? _. cbv zeta. repeat step.
  all: apply IH; [assumption|len].
Qed.
Lemma res_parseInput s : inv s -> res s any (parseInput in_range s).
Proof.
  intro Iv. unfold parseInput. repeat step. eapply res_bind; [assumption|apply res_input; [assumption|lia]|]. intros. repeat step.
Qed.
Lemma res_execute s : inv s -> res s any (parseExecuteStatement in_range s).
Proof.
  intro Iv. unfold parseExecuteStatement. apply res_catch; [assumption|]. repeat step.
  eapply res_bind with (V := any); [assumption|repeat step|]. intros ? ? ? ? _. repeat step.
  eapply res_bind; [assumption|apply res_parseInput; assumption|]. intros. repeat step.
Qed.

(** The only [runtime_error] that escapes: a "limit" without a readable number. *)
Definition run_stop (s : stream) : Prop :=
  (exists l b, before s = l :: b /\ kind "_limit" l /\ after s = []) \/
  (exists x l b, before s = x :: l :: b /\ kind "_limit" l /\ forall z, ~ int_token x z).
Definition resr {A} (s : stream) (x : presult A) : Prop := res s any x /\ forall m s', x = PRun m s' -> run_stop s'.
Lemma catch_no_run {A} (x : presult A) m s : catch_runtime x <> PRun m s.
Proof. destruct x as [a s0|e|m' s0|s0| |]; cbn; try discriminate. unfold generateError. destruct (previous s0); discriminate. Qed.

Lemma resr_print s : inv s -> resr s (parsePrintStatement s).
Proof.
  intro Iv. split; [unfold parsePrintStatement; repeat step|].
  intros m s' H. unfold parsePrintStatement in H. destruct s as [b a]. destruct a as [|x a]; cbpi H; [destruct b; discriminate|].
  destruct (negb (is_value "raw" x) && negb (is_value "pretty" x))%bool; [discriminate|]. destruct a as [|n a]; cbpi H; [discriminate|].
  destruct a as [|l a]; cbpi H; [discriminate|]. destruct (is_label "_limit" l) eqn:L; cbpi H; [|discriminate]. apply is_label_true in L.
  unfold parseNextNumber, next in H. destruct a as [|i a]; cbpi H.
  - injection H as _ <-. left. exists l, (n :: x :: b). auto.
  - destruct (stoi (value i)) eqn:E; cbpi H; [discriminate|]. injection H as _ <-. right. exists i, l, (n :: x :: b). split; [reflexivity|]. split; [exact L|].
    intros z Z. apply stoi_spec in Z. congruence.
Qed.
Lemma resr_statement first s : inv s -> In first (all s) -> resr s (parseStatement in_range first s).
Proof.
  intros Iv K. unfold parseStatement.
  destruct (is_label "_help" first).
  { split; [unfold parseHelpStatement; repeat step|]. unfold parseHelpStatement. destruct s as [b [|t a]]; cbp; discriminate. }
  destruct (is_label "_print" first); [apply resr_print, Iv|].
  destruct (is_label "_create" first).
  { split; [apply res_create, Iv|]. unfold parseCreateStatement. intros m s' H. destruct s as [b a]. destruct a as [|t a]; cbpi H; [destruct b; discriminate|].
    destruct (is_label "_dataset" t); [exfalso; eapply catch_no_run, H|]. destruct (is_label "_task" t); [exfalso; eapply catch_no_run, H|discriminate]. }
  destruct (is_label "_execute" first).
  { split; [apply res_execute, Iv|]. intros m s' H. exfalso. eapply catch_no_run, H. }
  destruct (is_label "_exit" first); (split; [repeat step|intros; discriminate]).
Qed.

Lemma resr_block k acc s :
  Forall (fun t => value t <> []) (all s) -> List.length (after s) < k -> resr s (block_loop in_range k acc s).
Proof.
  revert acc s. induction k as [|k IH]; intros acc s F L; [lia|]. cbn [block_loop]. destruct s as [b [|t a]]; cbp.
  - split; [apply res_val; exact I|discriminate].
  - assert (E : ext (st b (t :: a)) (st (t :: b) a)) by (exists [t]; split; reflexivity).
    assert (Iv : inv (st (t :: b) a)) by (split; [discriminate|rewrite (ext_all _ _ E); exact F]).
    assert (IH' : forall acc s1, ext (st (t :: b) a) s1 -> resr (st (t :: b) a) (block_loop in_range k acc s1)).
    { intros acc' s1 E1. destruct (IH acc' s1) as [R1 R2].
      - apply (ext_inv _ _ E1 Iv).
      - apply ext_len in E1. cbn [after List.length] in *. lia.
      - split; [|exact R2]. pose proof (res_bind _ any any (PVal tt s1) (fun _ s => block_loop in_range k acc' s) Iv) as B. cbn [pbind] in B. apply B.
        + split; [exact E1|exact I].
        + intros u s2 E2 I2 _. destruct (IH acc' s2) as [R _]; [apply I2| |exact R]. apply ext_len in E2. cbn [after List.length] in *. lia. }
    assert (Back : forall x : presult (list statement), resr (st (t :: b) a) x -> resr (st b (t :: a)) x).
    { intros x [R1 R2]. split; [|exact R2]. destruct x as [v s1|e|m s1|s1| |]; cbn [res] in *; try exact R1.
      - split; [eapply ext_trans; [exact E|apply R1]|exact I].
      - rewrite (ext_all _ _ E) in R1. exact R1.
      - eapply ext_trans; [exact E|exact R1].
      - split; [eapply ext_trans; [exact E|apply R1]|apply R1]. }
    apply Back. destruct (is_label "_newline" t); [apply IH', ext_refl|].
    destruct (resr_statement t (st (t :: b) a) Iv) as [R1 R2].
    { unfold all. cbn [before rev after]. apply in_or_app. left. apply in_or_app. right. left. reflexivity. }
    destruct (parseStatement in_range t (st (t :: b) a)) as [v s1|e|m s1|s1| |] eqn:P; cbp.
    + apply IH'. apply R1.
    + split; [exact R1|discriminate].
    + split; [exact R1|]. intros m' s' H. injection H as <- <-. apply (R2 m s1). reflexivity.
    + split; [exact R1|discriminate].
    + destruct R1.
    + destruct R1.
Qed.
End Safety.
