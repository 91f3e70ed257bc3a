From Coq Require Import Ascii String List Bool Arith NArith Lia.
From Coq Require Import ZifyBool ZifyN ZifyNat.
From Verif Require Import Chars Delimited_Model Lexer_Model Lexer_Spec.
Import ListNotations.

Lemma code_lt c : (code c < 256)%N.
Proof. apply N_ascii_bounded. Qed.
Lemma code_inj a b : code a = code b -> a = b.
Proof. intro H. rewrite <- (ascii_N_embedding a), <- (ascii_N_embedding b). unfold code in H. now rewrite H. Qed.
Lemma code_tolower c : code (tolower c) = if isupper c then (code c + 32)%N else code c.
Proof.
  unfold tolower. destruct (isupper c) eqn:E; [|reflexivity]. apply N_ascii_embedding.
  unfold isupper in E. lia.
Qed.
Lemma tolower_same a b : tolower a = tolower b <-> same_letter a b.
Proof.
  split.
  - intro H. apply (f_equal code) in H. rewrite !code_tolower in H. unfold same_letter.
    destruct (isupper a) eqn:A, (isupper b) eqn:B.
    + left. apply code_inj. lia.
    + right. left. split; [reflexivity|]. lia.
    + right. right. split; [reflexivity|]. lia.
    + left. now apply code_inj.
  - intro H. apply code_inj. rewrite !code_tolower. unfold isupper in *.
    destruct H as [->|[[A H]|[A H]]]; [reflexivity| |]; unfold isupper in A;
      destruct (N.leb 65 (code a) && N.leb (code a) 90)%N eqn:E1, (N.leb 65 (code b) && N.leb (code b) 90)%N eqn:E2; lia.
Qed.
Lemma map_tolower s t : map tolower s = map tolower t <-> Forall2 same_letter s t.
Proof.
  split.
  - revert t. induction s as [|a s IH]; intros [|b t] H; cbn in H; try discriminate; constructor.
    + apply tolower_same. congruence.
    + apply IH. congruence.
  - induction 1 as [|a b s t H F IH]; [reflexivity|]. cbn. apply tolower_same in H. congruence.
Qed.

Definition is_prefix (rest s : str) : Prop := exists r, rest = s ++ r.
(** The matcher finds the longest prefix in the language. *)
Definition finds (m : matcher) (L : str -> Prop) : Prop := forall rest,
  match run m rest with
  | Some n => n <= List.length rest /\ L (firstn n rest) /\ (forall s, is_prefix rest s -> L s -> List.length s <= n)
  | None => forall s, is_prefix rest s -> ~ L s
  end.

Lemma prefix_firstn rest s : is_prefix rest s -> s = firstn (List.length s) rest /\ List.length s <= List.length rest.
Proof. intros [r ->]. rewrite firstn_app, firstn_all, Nat.sub_diag. cbn [firstn]. rewrite app_nil_r, app_length. split; [reflexivity|lia]. Qed.

Lemma F2_length {A B} (P : A -> B -> Prop) l l' : Forall2 P l l' -> List.length l = List.length l'.
Proof. induction 1; cbn; congruence. Qed.

Lemma finds_keyword w : finds (MText (lit w) true) (in_lang (Keyword w)).
Proof.
  intro rest. cbn [run].
  destruct (Nat.leb (List.length (lit w)) (List.length rest) &&
            seq_eqb (map tolower (firstn (List.length (lit w)) rest)) (map tolower (lit w))) eqn:E.
  - apply andb_true_iff in E as [L E]. apply Nat.leb_le in L.
    destruct (seq_eqb_spec (map tolower (firstn (List.length (lit w)) rest)) (map tolower (lit w))) as [E2|]; [|discriminate].
    split; [exact L|]. split.
    + constructor. apply map_tolower. exact E2.
    + intros s _ H. inversion H; subst. apply F2_length in H1. unfold lit. lia.
  - intros s P H. inversion H as [w' s' Hs| | | | | |]; subst. unfold same_word in Hs. pose proof (F2_length _ _ _ Hs) as Hl.
    apply prefix_firstn in P as [P1 P2]. fold (lit w) in *. rewrite Hl in P1, P2.
    apply map_tolower in Hs. rewrite P1 in Hs. fold (lit w) in Hs. rewrite Hs in E.
    destruct (seq_eqb_spec (map tolower (lit w)) (map tolower (lit w))); [|congruence].
    apply Nat.leb_le in P2. rewrite P2 in E. discriminate.
Qed.

Definition plain (c : ascii) : bool := negb (isupper c) && negb (islower c).
Lemma tolower_plain a c : plain c = true -> (tolower a = tolower c <-> a = c).
Proof.
  intro H. split; [|congruence]. intro E. apply code_inj. apply (f_equal code) in E. rewrite !code_tolower in E.
  unfold plain, isupper, islower in *.
  destruct (N.leb 65 (code a) && N.leb (code a) 90)%N eqn:A, (N.leb 65 (code c) && N.leb (code c) 90)%N eqn:C; lia.
Qed.

Lemma run_char c ci rest : plain c = true ->
  run (MText [c] ci) rest = match rest with x :: _ => if ceq x c then Some 1 else None | [] => None end.
Proof.
  intro H. cbn [run]. destruct rest as [|x rest]; [reflexivity|]. cbn [List.length Nat.leb andb firstn].
  destruct ci; cbn [map seq_eqb].
  - destruct (ceq_spec x c) as [->|N]; [rewrite ceq_refl; reflexivity|].
    destruct (ceq_spec (tolower x) (tolower c)) as [E|]; [|reflexivity].
    apply (proj1 (tolower_plain x c H)) in E. contradiction.
  - destruct (ceq x c); reflexivity.
Qed.

Lemma finds_char c ci : plain c = true -> finds (MText [c] ci) (in_lang (Char c)).
Proof.
  intros H rest. rewrite run_char by exact H. destruct rest as [|x rest].
  - intros s P L. inversion L; subst. apply prefix_firstn in P as [P _]. discriminate.
  - destruct (ceq_spec x c) as [->|N].
    + split; [cbn; lia|]. split; [constructor|]. intros s _ L. inversion L. reflexivity.
    + intros s [r P] L. inversion L; subst. cbn in P. congruence.
Qed.

(** ** Runs of characters of one class *)
Fixpoint span (f : ascii -> bool) (s : str) : nat :=
  match s with c :: t => if f c then S (span f t) else 0 | [] => 0 end.

Lemma repeat_class (f : ascii -> bool) (g : str -> option nat) rest fuel : (forall s, g s = match s with c :: _ => if f c then Some 1 else None | [] => None end) ->
  List.length rest <= fuel -> repeat_loop g fuel rest = span f rest.
Proof.
  intro H. revert fuel. induction rest as [|c rest IH]; intros fuel Hf.
  - destruct fuel; cbn [repeat_loop]; [reflexivity|]. now rewrite H.
  - destruct fuel as [|k]; [cbn in Hf; lia|]. cbn [repeat_loop span]. rewrite H. destruct (f c); [|reflexivity].
    cbn [skipn plus]. rewrite IH; [reflexivity|cbn in Hf; lia].
Qed.

Lemma span_spec f s : span f s <= List.length s /\ Forall (fun c => f c = true) (firstn (span f s) s) /\
  (forall x r, skipn (span f s) s = x :: r -> f x = false) /\
  forall p, is_prefix s p -> Forall (fun c => f c = true) p -> List.length p <= span f s.
Proof.
  induction s as [|c s (I1 & I2 & I3 & I4)]; cbn [span].
  - repeat split; [cbn; lia|constructor|discriminate|]. intros p P _. apply prefix_firstn in P as [_ P]. exact P.
  - destruct (f c) eqn:E.
    + cbn [List.length firstn skipn]. repeat split; [lia|now constructor|exact I3|].
      intros [|d p] [r P] F; cbn [List.length]; [lia|]. cbn in P. injection P as <- P. inversion F; subst.
      enough (List.length p <= span f (p ++ r)) by lia. apply I4; [now exists r|assumption].
    + repeat split; [lia|constructor|cbn; intros; congruence|].
      intros [|d p] [r P] F; cbn [List.length]; [lia|]. cbn in P. inversion F; subst. congruence.
Qed.

Lemma run_class_repeat f rest : run (MRepeat (MClass f)) rest = Some (span f rest).
Proof. cbn [run]. f_equal. apply repeat_class; [reflexivity|lia]. Qed.
Lemma run_not_repeat x rest : run (MRepeat (MNotText [x])) rest = Some (span (fun c => negb (ceq c x)) rest).
Proof.
  cbn [run]. f_equal. apply repeat_class; [|lia]. intros [|c s]; [reflexivity|].
  cbn [run List.length firstn seq_eqb]. rewrite andb_true_r. destruct (ceq c x); reflexivity.
Qed.

Lemma word_body_spec c : word_body c = true <-> letter c \/ digit c \/ c = "_"%char.
Proof.
  unfold word_body, isalnum, letter, digit. destruct (ceq_spec c "_"%char); rewrite ?orb_true_r, ?orb_false_r.
  - split; auto.
  - rewrite !orb_true_iff. intuition congruence.
Qed.

Lemma finds_word : finds (p_matcher createWordPattern) (in_lang Word).
Proof.
  intro rest. cbn [p_matcher createWordPattern].
  destruct rest as [|c r].
  { cbn [run]. intros s P L. inversion L; subst. apply prefix_firstn in P as [_ P]. cbn in P. lia. }
  assert (E : run (MAll [MClass isalpha; MRepeat (MClass word_body)]) (c :: r) =
              if isalpha c then Some (S (span word_body r)) else None).
  { pose proof (run_class_repeat word_body r) as R. cbn [run] in R |- *. destruct (isalpha c); [|reflexivity].
    cbn [skipn]. injection R as R. now rewrite R. }
  rewrite E. clear E. destruct (isalpha c) eqn:A.
  - destruct (span_spec word_body r) as (S1 & S2 & S3 & S4).
    assert (Lc : letter c) by (unfold isalpha in A; apply orb_true_iff in A; exact A).
    split; [cbn; lia|]. split.
    + cbn [firstn]. constructor; [exact Lc|]. eapply Forall_impl; [|exact S2]. intros a. apply word_body_spec.
    + intros s [t P] L. inversion L as [| | | | |c' s' _ F|]; subst. cbn in P. injection P as <- P. cbn [List.length].
      enough (List.length s' <= span word_body r) by lia. apply S4; [now exists t|].
      eapply Forall_impl; [|exact F]. intros a. apply word_body_spec.
  - intros s [t P] L. inversion L as [| | | | |c' s' Lc F|]; subst. cbn in P. injection P as <- P.
    unfold isalpha in A. unfold letter in Lc. apply orb_false_iff in A. intuition congruence.
Qed.

Lemma finds_comment : finds (p_matcher createCommentPattern) (in_lang Comment).
Proof.
  intro rest. cbn [p_matcher createCommentPattern].
  assert (E : run (MAll [MText (lit "#") true; MRepeat (MNotText [NL])]) rest =
    match rest with c :: r => if ceq c "#"%char then Some (S (span (fun c => negb (ceq c NL)) r)) else None | [] => None end).
  { pose proof (run_char "#"%char true rest eq_refl) as R1.
    change (lit "#") with ["#"%char].
    pose proof (run_not_repeat NL (tl rest)) as R2.
    remember (MText ["#"%char] true) as m1. remember (MRepeat (MNotText [NL])) as m2. cbn [run]. rewrite R1.
    destruct rest as [|c r]; [reflexivity|]. destruct (ceq c "#"%char); [|reflexivity]. cbn [skipn tl] in *. rewrite R2. reflexivity. }
  rewrite E. clear E. destruct rest as [|c r].
  { intros s P L. inversion L; subst. apply prefix_firstn in P as [_ P]. cbn in P. lia. }
  destruct (ceq_spec c "#"%char) as [->|N].
  - destruct (span_spec (fun c => negb (ceq c NL)) r) as (S1 & S2 & S3 & S4).
    split; [cbn [List.length]; lia|]. split.
    + cbn [firstn]. constructor. intro H. rewrite Forall_forall in S2. specialize (S2 _ H). cbn beta in S2. rewrite ceq_refl in S2. discriminate.
    + intros s [t P] L. inversion L as [|s' H| | | | |]; subst. cbn in P. injection P as P. cbn [List.length].
      enough (List.length s' <= span (fun c => negb (ceq c NL)) r) by lia. apply S4; [now exists t|].
      apply Forall_forall. intros x Hx. destruct (ceq_spec x NL); [subst; contradiction|reflexivity].
  - intros s [t P] L. inversion L; subst. cbn in P. congruence.
Qed.

Lemma finds_number : finds (p_matcher createNumberPattern) (in_lang Number).
Proof.
  intro rest. cbn [p_matcher createNumberPattern].
  set (n := span isdigit rest).
  assert (E : run (MAll [MRepeat (MClass isdigit); MOptional (MText (lit ".") false); MRepeat (MClass isdigit)]) rest =
    Some (match skipn n rest with
          | c :: r => if ceq c "."%char then n + 1 + span isdigit r else n + 0 + span isdigit (c :: r)
          | [] => n end)).
  { change (lit ".") with ["."%char].
    pose proof (run_class_repeat isdigit) as R1.
    pose proof (run_char "."%char false) as R2.
    remember (MText ["."%char] false) as m1. remember (MRepeat (MClass isdigit)) as m2.
    cbn [run]. rewrite R1. fold n. cbn [plus]. rewrite R2 by reflexivity.
    destruct (skipn n rest) as [|c r] eqn:Es; [|destruct (ceq c "."%char)]; cbn [skipn]; rewrite R1; f_equal; cbn [span]; lia. }
  rewrite E. clear E.
  destruct (span_spec isdigit rest) as (S1 & S2 & S3 & S4). fold n in S1, S2, S3, S4.
  assert (Er : rest = firstn n rest ++ skipn n rest) by (symmetry; apply firstn_skipn).
  assert (Ln : List.length (firstn n rest) = n) by (rewrite firstn_length; lia).
  destruct (skipn n rest) as [|c r] eqn:Es.
  - split; [exact S1|]. split.
    + apply in_number_whole. exact S2.
    + intros s P L. apply prefix_firstn in P as [_ P]. apply (f_equal (@List.length _)) in Es.
      rewrite skipn_length in Es. cbn in Es. lia.
  - assert (Lr : List.length rest = n + S (List.length r)) by (rewrite Er, app_length, Ln; reflexivity).
    destruct (ceq_spec c "."%char) as [->|Nc].
    + destruct (span_spec isdigit r) as (T1 & T2 & T3 & T4). split; [lia|]. split.
      * rewrite Er. rewrite firstn_app, Ln. rewrite firstn_all2 by lia.
        replace (n + 1 + span isdigit r - n) with (S (span isdigit r)) by lia. cbn [firstn].
        apply in_number_point; assumption.
      * intros s P L. inversion L as [| | |s' F|s' t F F'| |]; subst.
        -- specialize (S4 _ P F). lia.
        -- assert (Ls : List.length s' = n).
           { assert (List.length s' <= n).
             { apply S4; [|exact F]. destruct P as [x ->]. exists (("."%char :: t) ++ x). now rewrite app_assoc. }
             assert (~ List.length s' < n); [|lia]. intro Hlt. destruct P as [x P]. rewrite <- app_assoc in P.
             assert (Hd : nth_error (firstn n rest) (List.length s') = Some "."%char).
             { assert (Hn : nth_error rest (List.length s') = Some "."%char).
               { rewrite P. rewrite nth_error_app2 by lia. rewrite Nat.sub_diag. reflexivity. }
               rewrite Er in Hn. rewrite nth_error_app1 in Hn by lia. exact Hn. }
             apply nth_error_In in Hd. rewrite Forall_forall in S2. specialize (S2 _ Hd). discriminate. }
           rewrite app_length. cbn [List.length].
           enough (List.length t <= span isdigit r) by lia. apply T4; [|exact F'].
           destruct P as [x P]. exists x. rewrite <- app_assoc in P. cbn [app] in P.
           assert (Hs : skipn n rest = "."%char :: t ++ x).
           { rewrite P, <- Ls. rewrite skipn_app, skipn_all, Nat.sub_diag. reflexivity. }
           rewrite Es in Hs. congruence.
    + assert (Hc : isdigit c = false) by (apply (S3 c r eq_refl)).
      cbn [span]. rewrite Hc. rewrite !Nat.add_0_r. split; [exact S1|]. split.
      * apply in_number_whole. exact S2.
      * intros s P L. inversion L as [| | |s' F|s' t F F'| |]; subst.
        -- exact (S4 _ P F).
        -- exfalso. assert (H1 : List.length s' <= n).
           { apply S4; [|exact F]. destruct P as [x ->]. exists (("."%char :: t) ++ x). now rewrite app_assoc. }
           destruct P as [x P]. rewrite <- app_assoc in P. cbn [app] in P.
           assert (Hn : nth_error rest (List.length s') = Some "."%char).
           { rewrite P. rewrite nth_error_app2 by lia. rewrite Nat.sub_diag. reflexivity. }
           rewrite Er in Hn. destruct (Nat.eq_dec (List.length s') n) as [He|He].
           ++ rewrite nth_error_app2 in Hn by lia. rewrite Ln, He, Nat.sub_diag in Hn. cbn in Hn. congruence.
           ++ rewrite nth_error_app1 in Hn by lia. apply nth_error_In in Hn. rewrite Forall_forall in S2.
              specialize (S2 _ Hn). discriminate.
Qed.

(** ** Quoted strings *)
Definition body_step (q : ascii) (rest : str) : option nat :=
  match rest with
  | [] => None
  | c :: r => if ceq c BSL && match r with d :: _ => ceq d q | [] => false end then Some 2
              else if ceq c q then None else Some 1
  end.
Lemma run_body q rest : run (MAny [MText [BSL; q] false; MNotText [q]]) rest = body_step q rest.
Proof.
  cbn [run]. destruct rest as [|c r]; [reflexivity|]. cbn [List.length firstn]. unfold body_step.
  destruct r as [|d r]; cbn [Nat.leb List.length andb firstn seq_eqb].
  - rewrite andb_false_r, andb_true_r. destruct (ceq c q); reflexivity.
  - rewrite !andb_true_r. destruct (ceq c BSL), (ceq d q), (ceq c q); reflexivity.
Qed.

Lemma body_loop_greedy q b : string_body q b -> forall r fuel, q <> BSL -> List.length b <= fuel -> (S (List.length b) <= fuel -> True) ->
  repeat_loop (body_step q) fuel (b ++ q :: r) = List.length b \/ fuel < S (List.length b).
Proof.
  induction 1 as [|b H IH|c b Hc Hb H IH]; intros r fuel Hq Hf _.
  - destruct fuel as [|k]; [right; cbn; lia|]. left. cbn [app repeat_loop body_step].
    rewrite ceq_refl. destruct (ceq_spec q BSL); [contradiction|]. reflexivity.
  - destruct fuel as [|k]; [right; lia|]. cbn [app repeat_loop body_step]. change (ascii_of_N 92) with BSL.
    rewrite !ceq_refl. cbn [andb skipn List.length] in *.
    destruct (IH r k Hq ltac:(lia) ltac:(auto)) as [E|E]; [left; rewrite E; reflexivity|right; lia].
  - destruct fuel as [|k]; [right; lia|]. cbn [app repeat_loop]. cbn [List.length] in *.
    assert (E : body_step q (c :: b ++ q :: r) = Some 1).
    { unfold body_step. destruct (ceq_spec c BSL) as [->|].
      - destruct (Hb eq_refl) as [H1 H2]. destruct b as [|d b]; [congruence|]. cbn [app andb].
        destruct (ceq_spec d q) as [->|]; [cbn in H2; congruence|]. destruct (ceq_spec BSL q); [congruence|reflexivity].
      - cbn [andb]. destruct (ceq_spec c q); [contradiction|reflexivity]. }
    rewrite E. cbn [skipn]. destruct (IH r k Hq ltac:(lia) ltac:(auto)) as [E2|E2]; [left; rewrite E2; reflexivity|right; lia].
Qed.

Lemma body_loop_sound q fuel : q <> BSL -> forall rest, List.length rest <= fuel ->
  let n := repeat_loop (body_step q) fuel rest in
  n <= List.length rest /\ forall r, skipn n rest = q :: r -> string_body q (firstn n rest).
Proof.
  intro Hq. induction fuel as [fuel IH] using (well_founded_induction Wf_nat.lt_wf). intros rest Hf.
  destruct fuel as [|k].
  { destruct rest; [|cbn in Hf; lia]. cbn. split; [lia|]. discriminate. }
  cbn zeta. cbn [repeat_loop]. destruct rest as [|c rest].
  { cbn. split; [lia|discriminate]. }
  unfold body_step at 1 3 5. cbn [List.length] in Hf.
  destruct (ceq c BSL && match rest with d :: _ => ceq d q | [] => false end) eqn:E.
  - destruct rest as [|d rest]; [rewrite andb_false_r in E; discriminate|].
    apply andb_true_iff in E as [E1 E2]. destruct (ceq_spec c BSL) as [->|]; [|discriminate].
    destruct (ceq_spec d q) as [->|]; [|discriminate]. cbn [skipn List.length plus] in *.
    destruct (IH k ltac:(lia) rest ltac:(lia)) as [I1 I2]. split; [lia|]. intros r Hr. cbn [firstn].
    apply body_escape. apply (I2 r Hr).
  - destruct (ceq_spec c q) as [->|Nc].
    { split; [lia|]. intros r _. cbn [firstn]. constructor. }
    cbn [skipn plus]. destruct (IH k ltac:(lia) rest ltac:(lia)) as [I1 I2]. cbn [List.length]. split; [lia|].
    intros r Hr. cbn [firstn]. apply body_char; [exact Nc| |exact (I2 r Hr)].
    intros ->. change (ascii_of_N 92) with BSL in E. rewrite ceq_refl in E. cbn [andb] in E.
    set (n := repeat_loop (body_step q) k rest) in *. destruct rest as [|d rest].
    + rewrite skipn_nil in Hr. discriminate.
    + destruct (ceq_spec d q) as [->|Nd]; [discriminate|]. destruct n as [|n].
      * cbn in Hr. congruence.
      * cbn [firstn hd_error]. split; [discriminate|congruence].
Qed.

Lemma run_string q rest : plain q = true ->
  run (createStringPatternMatcher q) rest =
  match rest with
  | [] => None
  | c :: r => if ceq c q then
                let n := repeat_loop (body_step q) (List.length r) r in
                match skipn n r with x :: _ => if ceq x q then Some (S n + 1) else None | [] => None end
              else None
  end.
Proof.
  intro Hp. unfold createStringPatternMatcher.
  pose proof (run_char q true) as R1.
  assert (R2 : forall s, run (MRepeat (MAny [MText [BSL; q] false; MNotText [q]])) s = Some (repeat_loop (body_step q) (List.length s) s)).
  { intro s. cbn [run]. f_equal. generalize (List.length s) as k. intro k. revert s. induction k as [|k IH]; intro s; [reflexivity|].
    cbn [repeat_loop]. pose proof (run_body q s) as R. cbn [run] in R. rewrite R. destruct (body_step q s); [|reflexivity]. now rewrite IH. }
  remember (MText [q] true) as m1. remember (MRepeat (MAny [MText [BSL; q] false; MNotText [q]])) as m2.
  cbn [run]. rewrite R1 by exact Hp. destruct rest as [|c r]; [reflexivity|]. destruct (ceq c q); [|reflexivity].
  cbn [skipn plus]. rewrite R2. cbv zeta. rewrite R1 by exact Hp.
  destruct (skipn _ r) as [|x t]; [reflexivity|]. destruct (ceq x q); reflexivity.
Qed.

Definition quoted_with (q : ascii) (s : str) : Prop := exists b, s = q :: b ++ [q] /\ string_body q b.
Lemma finds_quoted q : plain q = true -> q <> BSL -> finds (createStringPatternMatcher q) (quoted_with q).
Proof.
  intros Hp Hq rest. rewrite run_string by exact Hp. destruct rest as [|c r].
  { intros s P (b & -> & _). apply prefix_firstn in P as [_ P]. cbn in P. lia. }
  assert (U : forall s, is_prefix (c :: r) s -> quoted_with q s -> c = q /\ exists b t, r = b ++ q :: t /\ s = q :: b ++ [q] /\
    repeat_loop (body_step q) (List.length r) r = List.length b).
  { intros s [t P] (b & -> & Hb). cbn [app] in P. injection P as -> ->. split; [reflexivity|]. exists b, t.
    rewrite <- app_assoc. cbn [app]. split; [reflexivity|]. split; [reflexivity|].
    destruct (body_loop_greedy q b Hb t (List.length (b ++ q :: t)) Hq) as [E|E]; [rewrite app_length; lia|auto|exact E|].
    exfalso. rewrite app_length in E. cbn [List.length] in E. lia. }
  destruct (ceq_spec c q) as [->|N].
  2:{ intros s P Q. destruct (U s P Q) as [Hc _]. contradiction. }
  cbv zeta. destruct (body_loop_sound q (List.length r) Hq r (Nat.le_refl _)) as [B1 B2].
  set (n := repeat_loop (body_step q) (List.length r) r) in *.
  assert (Er : r = firstn n r ++ skipn n r) by (symmetry; apply firstn_skipn).
  destruct (skipn n r) as [|x t] eqn:Es.
  { intros s P Q. destruct (U s P Q) as (_ & b & t & Ebt & _ & En). apply (f_equal (@List.length _)) in Es.
    rewrite skipn_length, Ebt, app_length in Es. cbn in Es. lia. }
  destruct (ceq_spec x q) as [->|Nx].
  - assert (Lr : List.length r = n + S (List.length t)).
    { apply (f_equal (@List.length _)) in Es. rewrite skipn_length in Es. cbn in Es. lia. }
    split; [cbn [List.length]; lia|]. split.
    + exists (firstn n r). split; [|apply (B2 t eq_refl)]. cbn [plus firstn]. f_equal.
      rewrite Er at 1. rewrite firstn_app, firstn_length, Nat.min_l by lia.
      rewrite firstn_all2 by (rewrite firstn_length; lia). replace (n + 1 - n) with 1 by lia. reflexivity.
    + intros s P Q. destruct (U s P Q) as (_ & b & t' & _ & -> & En). cbn [List.length]. rewrite app_length. cbn. lia.
  - intros s P Q. destruct (U s P Q) as (_ & b & t' & Eb & _ & En). apply Nx.
    rewrite Eb in Es. fold n in En. rewrite En in Es. rewrite skipn_app, skipn_all, Nat.sub_diag in Es. cbn in Es. congruence.
Qed.

Lemma in_quoted_iff s : in_lang Quoted s <-> quoted_with DQ s \/ quoted_with SQ s.
Proof.
  split.
  - intro H. inversion H as [| |q b [->| ->] Hb| | | |]; subst; [left|right]; exists b; split; auto.
  - intros [(b & -> & Hb)|(b & -> & Hb)]; constructor; auto.
Qed.

Lemma finds_string : finds (p_matcher createStringPattern) (in_lang Quoted).
Proof.
  intro rest. cbn [p_matcher createStringPattern].
  pose proof (finds_quoted DQ eq_refl ltac:(discriminate) rest) as F1.
  pose proof (finds_quoted SQ eq_refl ltac:(discriminate) rest) as F2.
  remember (createStringPatternMatcher DQ) as m1. remember (createStringPatternMatcher SQ) as m2. cbn [run].
  destruct (run m1 rest) as [n|].
  - destruct F1 as (A1 & A2 & A3). split; [exact A1|]. split; [apply in_quoted_iff; now left|].
    intros s P Q. apply in_quoted_iff in Q as [Q|Q]; [auto|]. exfalso.
    destruct A2 as (b & E & _). destruct Q as (b' & -> & _). destruct P as [r ->]. destruct n; [discriminate|].
    cbn in E. discriminate.
  - destruct (run m2 rest) as [n|].
    + destruct F2 as (A1 & A2 & A3). split; [exact A1|]. split; [apply in_quoted_iff; now right|].
      intros s P Q. apply in_quoted_iff in Q as [Q|Q]; [exfalso; exact (F1 s P Q)|auto].
    + intros s P Q. apply in_quoted_iff in Q as [Q|Q]; [exact (F1 s P Q)|exact (F2 s P Q)].
Qed.

(** ** All patterns *)
Definition pk (p : pattern) (k : string * bool * lang) : Prop :=
  p_label p = fst (fst k) /\ p_skip p = snd (fst k) /\ finds (p_matcher p) (in_lang (snd k)).

Lemma Forall2_map2 {A B C} (P : B -> C -> Prop) (f : A -> B) (g : A -> C) l : (forall x, In x l -> P (f x) (g x)) -> Forall2 P (map f l) (map g l).
Proof. induction l; intro H; cbn; constructor; [apply H; now left|apply IHl; intros; apply H; now right]. Qed.

Lemma patterns_kinds : Forall2 pk happyml_patterns kinds.
Proof.
  unfold happyml_patterns, kinds. apply Forall2_app; [|apply Forall2_app; [|apply Forall2_app]].
  - apply Forall2_map2. intros w _. split; [reflexivity|]. split; [reflexivity|apply finds_keyword].
  - constructor; [split; [reflexivity|split; [reflexivity|apply finds_comment]]|].
    constructor; [split; [reflexivity|split; [reflexivity|apply finds_string]]|].
    constructor; [split; [reflexivity|split; [reflexivity|apply finds_number]]|].
    constructor; [split; [reflexivity|split; [reflexivity|apply finds_word]]|constructor].
  - apply (Forall2_map2 pk _ _ punctuation). intros x Hx. split; [reflexivity|]. split; [reflexivity|]. apply finds_char.
    revert x Hx. apply Forall_forall. repeat constructor.
  - apply (Forall2_map2 pk _ _ skipped). intros x Hx. split; [reflexivity|]. split; [reflexivity|]. apply finds_char.
    revert x Hx. apply Forall_forall. repeat constructor.
Qed.

Lemma longest_spec rest ps :
  match findLongestMatch ps rest with
  | Some (p, n) => exists i, nth_error ps i = Some p /\ run (p_matcher p) rest = Some n /\
      forall j p' n', nth_error ps j = Some p' -> run (p_matcher p') rest = Some n' -> n' <= n /\ (j < i -> n' < n)
  | None => forall p, In p ps -> run (p_matcher p) rest = None
  end.
Proof.
  unfold findLongestMatch. induction ps as [|p ps IH] using rev_ind; [intros p []|].
  rewrite fold_left_app. cbn [fold_left]. unfold better at 1.
  destruct (fold_left (better rest) ps None) as [[q m]|].
  - destruct IH as (i & Hi & Hr & Hm). assert (Li : i < List.length ps) by (apply nth_error_Some; congruence).
    destruct (run (p_matcher p) rest) as [n|] eqn:E.
    + destruct (Nat.ltb_spec m n).
      * exists (List.length ps). split; [rewrite nth_error_app2 by lia; now rewrite Nat.sub_diag|]. split; [exact E|].
        intros j p' n' Hj Hr'. destruct (Nat.lt_ge_cases j (List.length ps)).
        -- rewrite nth_error_app1 in Hj by lia. destruct (Hm j p' n' Hj Hr'). lia.
        -- rewrite nth_error_app2 in Hj by lia. destruct (j - List.length ps) as [|x]; [|destruct x; discriminate].
           cbn in Hj. injection Hj as <-. rewrite E in Hr'. injection Hr' as <-. lia.
      * exists i. split; [rewrite nth_error_app1 by lia; exact Hi|]. split; [exact Hr|].
        intros j p' n' Hj Hr'. destruct (Nat.lt_ge_cases j (List.length ps)).
        -- rewrite nth_error_app1 in Hj by lia. exact (Hm j p' n' Hj Hr').
        -- rewrite nth_error_app2 in Hj by lia. destruct (j - List.length ps) as [|x]; [|destruct x; discriminate].
           cbn in Hj. injection Hj as <-. rewrite E in Hr'. injection Hr' as <-. lia.
    + exists i. split; [rewrite nth_error_app1 by lia; exact Hi|]. split; [exact Hr|].
      intros j p' n' Hj Hr'. destruct (Nat.lt_ge_cases j (List.length ps)).
      * rewrite nth_error_app1 in Hj by lia. exact (Hm j p' n' Hj Hr').
      * rewrite nth_error_app2 in Hj by lia. destruct (j - List.length ps) as [|x]; [|destruct x; discriminate].
        cbn in Hj. injection Hj as <-. congruence.
  - destruct (run (p_matcher p) rest) as [n|] eqn:E.
    + exists (List.length ps). split; [rewrite nth_error_app2 by lia; now rewrite Nat.sub_diag|]. split; [exact E|].
      intros j p' n' Hj Hr'. destruct (Nat.lt_ge_cases j (List.length ps)).
      * rewrite nth_error_app1 in Hj by lia. rewrite IH in Hr' by (eapply nth_error_In; eauto). discriminate.
      * rewrite nth_error_app2 in Hj by lia. destruct (j - List.length ps) as [|x]; [|destruct x; discriminate].
        cbn in Hj. injection Hj as <-. rewrite E in Hr'. injection Hr' as <-. lia.
    + intros p' H. apply in_app_or in H as [H|[<-|[]]]; auto.
Qed.

Lemma Forall2_nth {A B} (P : A -> B -> Prop) l l' : Forall2 P l l' -> forall i,
  (forall a, nth_error l i = Some a -> exists b, nth_error l' i = Some b /\ P a b) /\
  (forall b, nth_error l' i = Some b -> exists a, nth_error l i = Some a /\ P a b).
Proof.
  induction 1 as [|a b l l' H F IH]; intros [|i]; cbn; split; intros x E; try discriminate.
  - injection E as <-. eauto.
  - injection E as <-. eauto.
  - apply IH. exact E.
  - apply IH. exact E.
Qed.

Lemma in_lang_start k c s : In k kinds -> in_lang (snd k) (c :: s) -> start_char c.
Proof.
  intros Hk H. unfold kinds in Hk.
  apply in_app_or in Hk as [Hk|Hk].
  { apply in_map_iff in Hk as (w & <- & Hw). cbn [snd] in H. inversion H as [w' s' Hs| | | | | |]; subst.
    unfold same_word in Hs. inversion Hs as [|a b l l' Hab F Ea Eb]; subst. left.
    assert (Lw : forall w, In w keywords -> Forall (fun c => islower c = true) (list_ascii_of_string w)).
    { apply Forall_forall. repeat constructor. }
    specialize (Lw w Hw). rewrite <- Eb in Lw. inversion Lw as [|? ? Lb _]; subst.
    unfold letter. destruct Hab as [->|[[U _]|[U _]]]; [auto|auto|].
    exfalso. unfold isupper, islower in *. lia. }
  apply in_app_or in Hk as [Hk|Hk].
  { destruct Hk as [<-|[<-|[<-|[<-|[]]]]]; cbn [snd] in H.
    - inversion H; subst. right. right. left. now left.
    - inversion H as [| |q b Hq Hb| | | |]; subst. right. right. right. cbn [In]. destruct Hq as [->| ->]; auto.
    - assert (G : forall x, in_lang Number x -> x = c :: s -> start_char c); [|exact (G _ H eq_refl)].
      clear H. intros x H. inversion H as [| | |s' F|s' t F F' | |]; subst x; intro E.
      + subst s'. inversion F; subst. right. now left.
      + destruct s' as [|d s']; cbn in E.
        * injection E as <- _. right. right. left. cbn. tauto.
        * injection E as -> _. inversion F; subst. right. now left.
    - inversion H; subst. now left. }
  assert (G : forall l : list (string * ascii), Forall (fun p => start_char (snd p)) l ->
     forall p, In p l -> in_lang (Char (snd p)) (c :: s) -> start_char c).
  { intros l F p Hp L. rewrite Forall_forall in F. specialize (F p Hp). inversion L; subst. exact F. }
  apply in_app_or in Hk as [Hk|Hk]; apply in_map_iff in Hk as (p & <- & Hp); cbn [snd] in H;
    refine (G _ _ p Hp H); repeat (constructor; [unfold start_char; cbn; tauto|]); constructor.
Qed.

Lemma nth_in_kinds i k : nth_error kinds i = Some k -> In k kinds.
Proof. apply nth_error_In. Qed.

Lemma start_in_lang c : start_char c -> exists k, In k kinds /\ in_lang (snd k) [c].
Proof.
  intros [H|[H|H]].
  - exists ("_word"%string, false, Word). split; [|constructor; [exact H|constructor]].
    unfold kinds. apply in_or_app. right. apply in_or_app. left. cbn. tauto.
  - exists ("_number"%string, false, Number). split; [|apply in_number_whole; constructor; [exact H|constructor]].
    unfold kinds. apply in_or_app. right. apply in_or_app. left. cbn. tauto.
  - assert (G : c = "#"%char \/ In c (map snd punctuation) \/ In c (map snd skipped)).
    { cbn in *. intuition. }
    clear H. destruct G as [->|[H|H]].
    + exists ("_comment"%string, true, Comment). split; [|constructor; auto].
      unfold kinds. apply in_or_app. right. apply in_or_app. left. cbn. tauto.
    + apply in_map_iff in H as (p & <- & Hp). exists (fst p, false, Char (snd p)). split; [|constructor].
      unfold kinds. apply in_or_app. right. apply in_or_app. right. apply in_or_app. left.
      apply (in_map (fun p : string * ascii => (fst p, false, Char (snd p))) _ _ Hp).
    + apply in_map_iff in H as (p & <- & Hp). exists (fst p, true, Char (snd p)). split; [|constructor].
      unfold kinds. apply in_or_app. right. apply in_or_app. right. apply in_or_app. right.
      apply (in_map (fun p : string * ascii => (fst p, true, Char (snd p))) _ _ Hp).
Qed.

Lemma match_next rest : rest <> [] ->
  match findLongestMatch happyml_patterns rest with
  | Some (p, n) => n <= List.length rest /\
      ((n = 0 /\ exists c r, rest = c :: r /\ ~ start_char c) \/
       (0 < n /\ exists i k, next_token rest i k (firstn n rest) /\ p_label p = fst (fst k) /\ p_skip p = snd (fst k)))
  | None => False
  end.
Proof.
  intro Hne. pose proof (longest_spec rest happyml_patterns) as H.
  pose proof patterns_kinds as PK.
  assert (Found : forall k s, In k kinds -> is_prefix rest s -> in_lang (snd k) s ->
    exists p m, In p happyml_patterns /\ run (p_matcher p) rest = Some m /\ List.length s <= m).
  { intros k s Hk P L. apply In_nth_error in Hk as [j Hj].
    destruct (Forall2_nth _ _ _ PK j) as [_ F]. destruct (F k Hj) as (p & Hp & _ & _ & Fi). specialize (Fi rest).
    destruct (run (p_matcher p) rest) as [m|] eqn:E; [|exfalso; exact (Fi s P L)].
    exists p, m. split; [eapply nth_error_In; eauto|]. split; [exact E|]. apply Fi; assumption. }
  destruct (findLongestMatch happyml_patterns rest) as [[p n]|].
  - destruct H as (i & Hi & Hr & Hm).
    destruct (Forall2_nth _ _ _ PK i) as [F _]. destruct (F p Hi) as (k & Hk & E1 & E2 & Fi). specialize (Fi rest).
    rewrite Hr in Fi. destruct Fi as (N1 & N2 & N3). split; [exact N1|].
    assert (Mx : forall k' s', In k' kinds -> is_prefix rest s' -> in_lang (snd k') s' -> List.length s' <= n).
    { intros k' s' Hk' P L. destruct (Found k' s' Hk' P L) as (p' & m & Hp' & Hm' & Hle).
      apply In_nth_error in Hp' as [j Hj]. destruct (Hm j p' m Hj Hm'). lia. }
    destruct n as [|n].
    + left. split; [reflexivity|]. destruct rest as [|c r]; [congruence|]. exists c, r. split; [reflexivity|].
      intro Hc. apply start_in_lang in Hc as (k' & Hk' & L). specialize (Mx k' [c] Hk' (ex_intro _ r eq_refl) L). cbn in Mx. lia.
    + right. split; [lia|]. exists i, k. split; [|auto].
      assert (Ls : List.length (firstn (S n) rest) = S n) by (rewrite firstn_length; lia).
      split; [exact Hk|]. split.
      { split; [intro E; rewrite E in Ls; discriminate|]. exists (skipn (S n) rest). symmetry. apply firstn_skipn. }
      split; [exact N2|]. split.
      * intros k' s' Hk' [_ P] L. rewrite Ls. exact (Mx k' s' Hk' P L).
      * intros j k' Hj Hk' L. destruct (Forall2_nth _ _ _ PK j) as [_ G]. destruct (G k' Hk') as (p' & Hp' & _ & _ & Fj).
        specialize (Fj rest). assert (P : is_prefix rest (firstn (S n) rest)) by (exists (skipn (S n) rest); symmetry; apply firstn_skipn).
        destruct (run (p_matcher p') rest) as [m|] eqn:E; [|exact (Fj _ P L)].
        destruct Fj as (_ & _ & Fj). specialize (Fj _ P L). rewrite Ls in Fj. destruct (Hm j p' m Hp' E) as [_ H]. specialize (H Hj). lia.
  - destruct (Found ("_number"%string, false, Number) []) as (p & m & Hp & E & _).
    + unfold kinds. apply in_or_app. right. apply in_or_app. left. cbn. tauto.
    + exists rest. reflexivity.
    + apply in_number_whole. constructor.
    + rewrite (H p Hp) in E. discriminate.
Qed.

Definition kept (x : string * bool * lang * str * nat) : bool := let '(k, _, _) := x in negb (snd (fst k)).
Definition as_token (x : string * bool * lang * str * nat) : token :=
  let '(k, s, o) := x in {| label := fst (fst k); value := s; offset := o |}.

Lemma lex_loop_spec fuel : forall o rest, List.length rest <= fuel ->
  match lex_loop happyml_patterns fuel o rest with
  | LexOk ts => exists l, tokens_of o rest l /\ ts = map as_token (filter kept l)
  | LexError o' => stuck o rest o'
  end.
Proof.
  induction fuel as [|k IH]; intros o rest Hf.
  { destruct rest; [|cbn in Hf; lia]. cbn. exists []. split; [constructor|reflexivity]. }
  destruct rest as [|c r] eqn:Er.
  { cbn. exists []. split; [constructor|reflexivity]. }
  rewrite <- Er in *. assert (Hne : rest <> []) by (rewrite Er; discriminate).
  pose proof (match_next rest Hne) as M.
  assert (E : lex_loop happyml_patterns (S k) o rest =
    match findLongestMatch happyml_patterns rest with
    | None => LexError o
    | Some (_, O) => LexError o
    | Some (p, n) =>
      match lex_loop happyml_patterns k (o + n) (skipn n rest) with
      | LexOk ts => LexOk (if p_skip p then ts else {| label := p_label p; value := firstn n rest; offset := o |} :: ts)
      | e => e
      end
    end) by (rewrite Er; reflexivity).
  rewrite E. clear E. destruct (findLongestMatch happyml_patterns rest) as [[p n]|]; [|destruct M].
  destruct M as [Hn [[-> (c' & r' & Ec & Hs)]|[Hp (i & kd & Hnext & E1 & E2)]]].
  { rewrite Ec. constructor. exact Hs. }
  destruct n as [|n']; [lia|]. set (n := S n') in *.
  assert (Ls : List.length (firstn n rest) = n) by (rewrite firstn_length; lia).
  specialize (IH (o + n) (skipn n rest)). rewrite skipn_length in IH. specialize (IH ltac:(lia)).
  destruct (lex_loop happyml_patterns k (o + n) (skipn n rest)) as [ts|o'].
  - destruct IH as (l & Hl & ->). exists ((kd, firstn n rest, o) :: l). split.
    + eapply tokens_more; [exact Hnext|symmetry; apply firstn_skipn|]. rewrite Ls. exact Hl.
    + cbn [filter kept]. rewrite <- E2. destruct (p_skip p); [reflexivity|]. cbn [negb map as_token]. rewrite E1. reflexivity.
  - eapply stuck_later; [exact Hnext|symmetry; apply firstn_skipn|]. rewrite Ls. exact IH.
Qed.

(** ** The splitting is unique *)
Lemma next_token_fun rest i k s i' k' s' : next_token rest i k s -> next_token rest i' k' s' -> i = i' /\ k = k' /\ s = s'.
Proof.
  intros (A1 & A2 & A3 & A4 & A5) (B1 & B2 & B3 & B4 & B5).
  assert (Ks : In k kinds /\ In k' kinds) by (split; eapply nth_error_In; eauto). destruct Ks as [K1 K2].
  assert (L : List.length s = List.length s').
  { specialize (A4 k' s' K2 B2 B3). specialize (B4 k s K1 A2 A3). lia. }
  assert (Es : s = s').
  { destruct A2 as [_ P]. destruct B2 as [_ Q]. apply prefix_firstn in P as [P _]. apply prefix_firstn in Q as [Q _]. congruence. }
  subst s'. assert (i = i').
  { destruct (Nat.lt_trichotomy i i') as [H|[H|H]]; [exfalso; exact (B5 i k H A1 A3)|exact H|exfalso; exact (A5 i' k' H B1 B3)]. }
  subst i'. split; [reflexivity|]. split; [congruence|reflexivity].
Qed.

Lemma tokens_of_fun o rest l : tokens_of o rest l -> forall l', tokens_of o rest l' -> l = l'.
Proof.
  induction 1 as [o|o rest i k s r l N E H IH]; intros l' H'.
  - inversion H' as [|? ? ? ? ? ? ? N E]; subst; [reflexivity|]. destruct N as (_ & [Hs _] & _).
    destruct s; [congruence|discriminate].
  - inversion H' as [o2 E0|o2 rest2 i' k' s' r' l2 N' E' H2]; subst.
    + destruct N as (_ & [Hs _] & _). destruct s; [congruence|discriminate].
    + destruct (next_token_fun _ _ _ _ _ _ _ N N') as (-> & -> & ->). apply app_inv_head in E'. subst r'. f_equal. auto.
Qed.

Lemma stuck_not_tokens o rest o' : stuck o rest o' -> forall l, ~ tokens_of o rest l.
Proof.
  induction 1 as [o c r Hc|o rest i k s r o' N E H IH]; intros l T.
  - inversion T as [|? ? i k s r' l' N E T']; subst. destruct N as (Hi & [Hs _] & L & _). destruct s as [|d s]; [congruence|].
    cbn in E. injection E as -> _. apply Hc. eapply in_lang_start; [eapply nth_error_In; eauto|exact L].
  - inversion T as [o2 E0|o2 rest2 i' k' s' r' l2 N' E' H2]; subst.
    + destruct N as (_ & [Hs _] & _). destruct s; [congruence|discriminate].
    + destruct (next_token_fun _ _ _ _ _ _ _ N N') as (-> & -> & ->). apply app_inv_head in E'. subst r'. exact (IH _ H2).
Qed.

Lemma tokens_positions o rest l : tokens_of o rest l ->
  rest = flat_map (fun x => snd (fst x)) l /\
  forall k s p, In (k, s, p) l -> o <= p /\ firstn (List.length s) (skipn (p - o) rest) = s /\ p + List.length s <= o + List.length rest.
Proof.
  induction 1 as [o|o rest i k s r l N E H (I1 & I2)].
  - split; [reflexivity|]. intros ? ? ? [].
  - split; [cbn [flat_map fst snd]; rewrite E; f_equal; exact I1|].
    intros k' s' p [Ein|Hin].
    + injection Ein as <- <- <-. split; [lia|]. rewrite Nat.sub_diag. cbn [skipn].
      rewrite E, firstn_app, firstn_all, Nat.sub_diag. cbn [firstn]. rewrite app_nil_r, app_length. split; [reflexivity|lia].
    + destruct (I2 k' s' p Hin) as (J1 & J2 & J3). split; [lia|]. rewrite E, app_length. split; [|lia].
      rewrite skipn_app. rewrite skipn_all2 by lia. cbn [app]. replace (p - o - List.length s) with (p - (o + List.length s)) by lia. exact J2.
Qed.
