From Coq Require Import Ascii String List Bool Arith NArith Lia Permutation.
From Verif Require Import Chars Outcome Tokens_Model Tokens_Spec.
Import ListNotations.
Open Scope char_scope.

Definition out (s : tok_state) : str := concat (ts_tokens s) ++ ts_token s.

Lemma flush_concat tok toks : concat (flush tok toks) = concat toks ++ tok.
Proof.
  destruct tok; cbn [flush]; [now rewrite app_nil_r|]. rewrite concat_app. cbn. now rewrite app_nil_r.
Qed.

Lemma fold_out text s :
  out (fold_left append_character text s) = out s ++ normalised (ts_last s) text.
Proof.
  revert s; induction text as [|c t IH]; intro s; cbn [fold_left normalised]; [now rewrite app_nil_r|].
  rewrite IH. unfold append_character. change (Ascii.eqb c CR) with (ceq c CR).
  destruct (ceq c CR); [reflexivity|].
  change (Ascii.eqb c (ts_last s)) with (ceq c (ts_last s)).
  destruct (isspace c).
  - destruct (ceq c (ts_last s)); cbn [negb ts_last app].
    + reflexivity.
    + unfold out. cbn [ts_tokens ts_token]. rewrite flush_concat. now rewrite <- !app_assoc.
  - destruct (isprint c && negb (isalnum c) && (negb (ceq c ".") || negb (isdigit (ts_last s)))) eqn:P.
    + apply andb_true_iff in P as [P _]. apply andb_true_iff in P as [P _]. rewrite P.
      unfold out. cbn [ts_tokens ts_token ts_last]. rewrite concat_app, flush_concat. cbn [concat].
      rewrite !app_nil_r. now rewrite <- !app_assoc.
    + destruct (isprint c); cbn [negb ts_last]; unfold out; cbn [ts_tokens ts_token]; now rewrite <- !app_assoc.
Qed.

Lemma tokens_concat text : concat (string_to_tokens text) = normalised (ascii_of_N 0) text.
Proof.
  unfold string_to_tokens, tok_finish. rewrite flush_concat.
  pose proof (fold_out text tok_start) as H. unfold out in H. exact H.
Qed.

Lemma tidy_normalised last text : tidy last text -> normalised last text = text.
Proof.
  revert last; induction text as [|c t IH]; intros last H; [reflexivity|].
  destruct H as (H1 & H2 & H3 & H4). cbn [normalised]. rewrite (IH c H4).
  destruct (Ascii.eqb_spec c CR); [contradiction|].
  destruct (isspace c).
  - destruct (Ascii.eqb_spec c last); [exfalso; apply H2; auto|reflexivity].
  - now rewrite H3.
Qed.

(** shape *)
Definition wordish (tok : str) : Prop :=
  exists ws w, tok = ws ++ w /\ (ws = [] \/ exists c, ws = [c] /\ isspace c = true) /\ Forall word_char w.
Definition good (s : tok_state) : Prop := Forall token_shape (ts_tokens s) /\ wordish (ts_token s).

Lemma flush_shape tok toks : Forall token_shape toks -> wordish tok -> Forall token_shape (flush tok toks).
Proof.
  intros H (ws & w & E & W & F). destruct tok as [|c t]; [exact H|]. cbn [flush].
  apply Forall_app. split; [exact H|]. constructor; [|constructor]. right. exists ws, w.
  repeat split; auto. discriminate.
Qed.

Lemma wordish_snoc tok c : wordish tok -> word_char c -> wordish (tok ++ [c]).
Proof.
  intros (ws & w & -> & W & F) Hc. exists ws, (w ++ [c]). rewrite app_assoc. repeat split; auto.
  apply Forall_app; auto.
Qed.
Lemma wordish_nil : wordish [].
Proof. exists [], []. repeat split; auto. Qed.

Lemma append_good s c : good s -> good (append_character s c).
Proof.
  intros [H1 H2]. unfold append_character. destruct (ceq c CR); [split; auto|].
  destruct (isspace c) eqn:S.
  - destruct (negb _); split; cbn; auto using flush_shape.
    exists [c], []. repeat split; eauto.
  - destruct (isprint c) eqn:P; cbn [andb negb].
    + destruct (isalnum c) eqn:A; cbn [andb negb].
      * split; cbn; auto. apply wordish_snoc; [exact H2|]. now left.
      * destruct (ceq_spec c ".") as [->|N]; cbn [negb orb].
        -- destruct (isdigit (ts_last s)); cbn [negb].
           ++ split; cbn; auto. apply wordish_snoc; [exact H2|]. right; now left.
           ++ split; cbn [ts_tokens ts_token]; [|apply wordish_nil]. apply Forall_app. split; [now apply flush_shape|].
              constructor; [|constructor]. left. exists ".". auto.
        -- split; cbn [ts_tokens ts_token]; [|apply wordish_nil]. apply Forall_app. split; [now apply flush_shape|].
           constructor; [|constructor]. left. exists c. auto.
    + split; cbn; auto. apply wordish_snoc; [exact H2|]. right; now right.
Qed.

Lemma fold_good text s : good s -> good (fold_left append_character text s).
Proof. revert s; induction text as [|c t IH]; intros s H; cbn; auto using append_good. Qed.

Lemma tokens_shape text : Forall token_shape (string_to_tokens text).
Proof.
  unfold string_to_tokens, tok_finish.
  destruct (fold_good text tok_start) as [H1 H2]; [split; [constructor|apply wordish_nil]|].
  now apply flush_shape.
Qed.

(** chunks *)
Lemma pieces_concat fuel size content : concat (pieces fuel size content) = content.
Proof.
  revert content; induction fuel as [|fuel IH]; intro content; cbn [pieces]; [cbn; apply app_nil_r|].
  destruct (Nat.leb size (length content)); cbn [concat]; [|apply app_nil_r].
  rewrite IH. apply firstn_skipn.
Qed.
Lemma fold_pieces ps s : fold_left (fun s piece => fold_left append_character piece s) ps s
  = fold_left append_character (concat ps) s.
Proof. revert s; induction ps as [|p ps IH]; intro s; cbn; [reflexivity|]. now rewrite IH, fold_left_app. Qed.
Lemma load_chunks size content : load_file_to_tokens size content = string_to_tokens content.
Proof. unfold load_file_to_tokens, string_to_tokens. now rewrite fold_pieces, pieces_concat. Qed.

(** split *)
Lemma omapM_ok {A B} (f : A -> outcome B) (g : A -> B) l : (forall x, In x l -> f x = Ok (g x)) ->
  omapM f l = Ok (map g l).
Proof.
  induction l as [|x l IH]; intro H; [reflexivity|]. cbn [omapM map]. rewrite H by now left.
  cbn [obind]. rewrite IH by (intros; apply H; now right). reflexivity.
Qed.

Lemma map_nth_seq {A} (l : list A) d a n : a + n <= length l ->
  map (fun i => nth i l d) (seq a n) = firstn n (skipn a l).
Proof.
  revert a n; induction l as [|x l IH]; intros a n H.
  - cbn in H. assert (a = 0) by lia. assert (n = 0) by lia. now subst.
  - destruct a as [|a].
    + destruct n as [|n]; [reflexivity|]. cbn [seq map firstn skipn nth]. f_equal.
      rewrite <- seq_shift, map_map. cbn [nth]. cbn [length] in H. rewrite (IH 0 n) by lia. reflexivity.
    + cbn [skipn]. rewrite <- seq_shift, map_map. cbn [nth]. cbn [length] in H. apply IH. lia.
Qed.

Section Split.
Context {A : Type}.

Lemma pick_ok (data : list A) indices d a n :
  Permutation indices (seq 0 (length data)) -> a + n <= length data ->
  omapM (fun i => do j <- vec_at indices i; vec_at data j) (seq a n)
  = Ok (map (fun j => nth j data d) (firstn n (skipn a indices))).
Proof.
  intros P H. pose proof (Permutation_length P) as L. rewrite seq_length in L.
  rewrite <- (map_nth_seq indices 0) by lia. rewrite map_map. apply omapM_ok.
  intros i Hi. apply in_seq in Hi. unfold vec_at.
  rewrite (nth_error_nth' indices 0) by lia. cbn [obind].
  assert (In (nth i indices 0) (seq 0 (length data))).
  { eapply Permutation_in; [exact P|]. apply nth_In. lia. }
  apply in_seq in H0. rewrite (nth_error_nth' data d) by lia. reflexivity.
Qed.

Lemma nth_seq_id (data : list A) d : map (fun j => nth j data d) (seq 0 (length data)) = data.
Proof. rewrite map_nth_seq by lia. cbn. apply firstn_all. Qed.

Lemma split_spec (data : list A) indices vs :
  Permutation indices (seq 0 (length data)) -> vs <= length data ->
  exists train valid, splitData data indices vs = Ok (train, valid) /\
    Permutation (train ++ valid) data /\ length valid = vs /\ length train = length data - vs.
Proof.
  intros P H. unfold splitData. destruct (Nat.leb_spec vs (length data)); [|lia].
  destruct data as [|d0 data0].
  - cbn in H. assert (vs = 0) by lia. subst vs. exists [], []. cbn. auto.
  - set (data := d0 :: data0) in *. pose proof (Permutation_length P) as L. rewrite seq_length in L.
    rewrite (pick_ok data indices d0) by (auto; lia). cbn [obind].
    rewrite (pick_ok data indices d0) by (auto; lia). cbn [obind].
    eexists _, _. split; [reflexivity|]. rewrite <- map_app. cbn [skipn].
    rewrite (firstn_all2 (n := vs) (skipn _ _)) by (rewrite skipn_length; lia).
    rewrite firstn_skipn. split.
    + rewrite (Permutation_map _ P). now rewrite nth_seq_id.
    + rewrite !map_length, skipn_length, firstn_length. lia.
Qed.

Lemma sample_spec (data : list A) indices vs :
  Permutation indices (seq 0 (length data)) -> vs <= length data ->
  exists rest valid, sampleData data indices vs = Ok valid /\
    Permutation (rest ++ valid) data /\ length valid = vs.
Proof.
  intros P H. destruct (split_spec data indices vs P H) as (train & valid & E & Pm & L & _).
  unfold splitData, sampleData in *. destruct (Nat.leb vs (length data)); [|discriminate].
  destruct (omapM _ (seq 0 _)); cbn [obind] in E; try discriminate.
  destruct (omapM _ (seq (length data - vs) vs)); cbn [obind] in E; try discriminate.
  injection E as -> ->. eauto.
Qed.
End Split.
