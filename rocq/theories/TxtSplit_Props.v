(** C63: a text file becomes records of limited length. *)
From Coq Require Import List Bool Arith NArith ZArith Ascii String Lia.
From Verif Require Import Outcome Chars TxtSplit_Model TxtSplit_Spec TxtSplit_Proofs.
Import ListNotations.
Local Open Scope Z_scope.

(** C63: no word of the text is lost and their order is kept. *)
Theorem txt_split_loses_no_word :
  forall content limit records text_words record_words,
    txt_records content limit = Ok records ->
    words content text_words -> Forall2 words records record_words ->
    subsequence text_words (List.concat record_words).
Proof.
  intros content limit records tw rw E Hw Hr. unfold txt_records in E. destruct (_ && _); [|discriminate].
  injection E as <-. apply words_fun in Hw as ->.
  assert (Er : rw = map wl (split_loop limit (Z.quot (limit * 4) 5) [] (pieces SP content))).
  { clear - Hr. induction Hr as [|r w rs ws H Hr IH]; cbn [map]; [reflexivity|]. rewrite (words_fun _ _ H), IH. reflexivity. }
  rewrite Er, <- flat_map_concat_map.
  apply (loop_sub limit _ (pieces SP content) []), pieces_nosp_all.
Qed.
Print Assumptions txt_split_loses_no_word.

(** C63, partly: the records hold exactly the words of the text, provided no word ends a
    sentence. (Full claim: for every text; see the refutation.) *)
Theorem txt_split_words_partial :
  forall content limit records text_words record_words,
    txt_records content limit = Ok records ->
    words content text_words -> Forall2 words records record_words ->
    Forall (fun w => ~ ends_sentence w) text_words ->
    List.concat record_words = text_words.
Proof.
  intros content limit records tw rw E Hw Hr Hs. unfold txt_records in E. destruct (_ && _); [|discriminate].
  injection E as <-. apply words_fun in Hw as ->.
  assert (Er : rw = map wl (split_loop limit (Z.quot (limit * 4) 5) [] (pieces SP content))).
  { clear - Hr. induction Hr as [|r w rs ws H Hr IH]; cbn [map]; [reflexivity|]. rewrite (words_fun _ _ H), IH. reflexivity. }
  rewrite Er, <- flat_map_concat_map.
  apply (loop_exact limit _ (pieces SP content) []).
  apply Forall_forall. intros t Ht. split.
  { pose proof (pieces_nosp_all content) as H. rewrite Forall_forall in H. auto. }
  destruct (sentence_end t) eqn:Es; [|reflexivity]. exfalso.
  rewrite Forall_forall in Hs. apply (Hs t); [|now apply sentence_end_spec].
  unfold wl. apply filter_In. split; [exact Ht|]. destruct t; [discriminate|reflexivity].
Qed.
Print Assumptions txt_split_words_partial.

(** C63: no record is longer than the limit unless it is a single word. *)
Theorem txt_split_record_length :
  forall content limit records, 0 <= limit ->
    txt_records content limit = Ok records ->
    Forall (fun r => Z.of_nat (List.length r) <= limit \/ ~ In " "%char r) records.
Proof.
  intros content limit records Hl E. unfold txt_records in E. destruct (_ && _) eqn:B; [|discriminate].
  injection E as <-. apply andb_true_iff in B as [_ B]. apply Z.ltb_lt in B.
  apply (loop_length limit); [lia|apply pieces_nosp_all|now left].
Qed.
Print Assumptions txt_split_record_length.

(** C63 refuted: the word that ends a sentence near the limit is written twice. *)
Theorem txt_split_words_refuted :
  exists content limit,
    txt_records (lit content) limit = Ok [lit " aaaa bbb."; lit "bbb. c"] /\
    words (lit content) [lit "aaaa"; lit "bbb."; lit "c"] /\
    words (lit " aaaa bbb.") [lit "aaaa"; lit "bbb."] /\ words (lit "bbb. c") [lit "bbb."; lit "c"].
Proof.
  exists "aaaa bbb. c"%string, 10. split; [vm_compute; reflexivity|].
  split; [exact (words_wl _)|]. split; exact (words_wl _).
Qed.
Print Assumptions txt_split_words_refuted.

(** Finding: a first word longer than the limit puts an empty record in front. *)
Theorem txt_split_empty_record :
  forall w rest limit, ~ In " "%char w -> 0 <= limit -> limit * 4 < 2 ^ 31 -> limit <= Z.of_nat (List.length w) ->
    exists records, txt_records (w ++ " "%char :: rest) limit = Ok ([] :: records).
Proof.
  intros w rest limit Hw Hl Hu Hlen. unfold txt_records.
  replace ((-2 ^ 31 <=? limit * 4) && (limit * 4 <? 2 ^ 31)) with true by (symmetry; apply andb_true_iff; lia).
  change " "%char with SP. rewrite pieces_app by exact Hw. cbn [split_loop]. unfold int_to_size at 1.
  rewrite Z.mod_small by lia. unfold len at 1 2. cbn [List.length].
  destruct (Z.leb_spec (Z.of_nat 0 + Z.of_nat (List.length w) + 1) limit); [lia|]. eauto.
Qed.
Print Assumptions txt_split_empty_record.

Example txt_split_ex :
  txt_records (lit "one two three four five") 9 = Ok [lit " one two"; lit "three"; lit "four five"].
Proof. vm_compute. reflexivity. Qed.
