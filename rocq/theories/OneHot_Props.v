(** C62: one-hot encoding of tokens; C67: embedding. *)
From Coq Require Import String Ascii List Bool Arith NArith ZArith Lia.
From Flocq Require Import IEEE754.Binary IEEE754.Bits.
From Verif Require Import Outcome Chars F32_Model Encode_Model Encode_Proofs Bpe_Model Bpe_Spec Bpe_Proofs Bpe_Loop Bpe_Files Bpe_Reach Bpe_Example
  OneHot_Model OneHot_Spec OneHot_Proofs.
Import ListNotations.

Lemma map_unit n i : (i < n)%nat -> unit_vector n i (map (fun k => if Nat.eqb k i then f1 else f0) (seq 0 n)).
Proof.
  intro H. split; [rewrite map_length; apply seq_length|]. intros k Hk.
  rewrite nth_error_map. rewrite (nth_error_nth' _ 0%nat) by (rewrite seq_length; lia).
  rewrite seq_nth by lia. reflexivity.
Qed.
Lemma map_zero n i : (n <= i)%nat -> zero_vector n (map (fun k => if Nat.eqb k i then f1 else f0) (seq 0 n)).
Proof.
  intro H. split; [rewrite map_length; apply seq_length|]. intros k Hk.
  rewrite nth_error_map. rewrite (nth_error_nth' _ 0%nat) by (rewrite seq_length; lia).
  rewrite seq_nth by lia. cbn [option_map plus]. destruct (Nat.eqb_spec k i); [lia|reflexivity].
Qed.

(** C62: when no code equals the given size, every code below it becomes a vector with the one
    1 at the code's place and every code above it the zero vector, in order. *)
(** Partial, C62: codes inside the model; for the code at its end it is refuted. *)
Theorem one_hot_bpe_partial :
  forall tokens largest, (forall t c, In t tokens -> In c t -> c <> largest) ->
    exists vs, one_hot_encode_bpe_tokens tokens largest = Ok vs /\
      Forall2 (fun c v => ((c < largest)%N -> unit_vector (N.to_nat largest) (N.to_nat c) v) /\
                          ((largest < c)%N -> zero_vector (N.to_nat largest) v)) (List.concat tokens) vs.
Proof.
  intros tokens largest H. unfold one_hot_encode_bpe_tokens.
  erewrite omapM_map_ok.
  2:{ intros c Hc. apply one_hot_code_eq. apply in_concat in Hc as (t & Ht & Hc). eauto. }
  eexists. split; [reflexivity|].
  induction (List.concat tokens) as [|c l IH]; cbn [map]; constructor; [|exact IH].
  split; intro Hc; [apply map_unit|apply map_zero]; lia.
Qed.
Print Assumptions one_hot_bpe_partial.

(** Finding: a code equal to the given size writes past the end of the vector, whatever the
    other tokens are. *)
Theorem one_hot_bpe_boundary :
  forall tokens t largest, In t tokens -> In largest t -> one_hot_encode_bpe_tokens tokens largest = UB.
Proof.
  intros tokens t largest Ht Hc. apply omapM_ub.
  - exists largest. split; [apply in_concat; eauto|apply one_hot_code_ub].
  - intros c _. destruct (N.eq_dec c largest) as [->|Hn]; [rewrite one_hot_code_ub; discriminate|].
    rewrite one_hot_code_eq by exact Hn. discriminate.
Qed.
Print Assumptions one_hot_bpe_boundary.

(** C62: with a model trained from new, every ASCII text is encoded, one vector with a single 1
    per code. *)
Theorem one_hot_trained_model :
  forall order stop sorter d data min_frequency num_merges b tokens,
    any_order order -> sorts_by_code sorter -> (127 <= d < 0x7FFE)%N ->
    train order stop sorter (new_bpe d) data min_frequency num_merges = Ok b ->
    Forall ascii_only tokens ->
    exists vs, one_hot_encode_bpe_tokens (map (encode b) tokens) (getLargestCode b) = Ok vs /\
      Forall2 (fun c v => unit_vector (N.to_nat (getLargestCode b)) (N.to_nat c) v) (List.concat (map (encode b) tokens)) vs.
Proof.
  intros order stop sorter d data m k b tokens Ho Hs Hd Ht Ha.
  destruct (train_new _ _ _ _ _ _ _ _ Ho Hs Hd Ht) as (pairs & E1 & E2 & E3 & _).
  assert (G : forall t c, In t (map (encode b) tokens) -> In c t -> (c < getLargestCode b)%N).
  { intros t c Hin Hc. apply in_map_iff in Hin as (w & <- & Hw). rewrite Forall_forall in Ha. specialize (Ha w Hw).
    unfold getLargestCode. rewrite E3.
    assert (C : forall e, In e (coded (d + 1) pairs) -> fst e <> [] /\ exists x, snd e = [x] /\ (x < d + 1 + N.of_nat (List.length pairs))%N).
    { clear. generalize (d + 1)%N as s. induction pairs as [|p pairs IH]; intros s e He; [destruct He|].
      cbn [coded] in He. apply in_app_or in He as [He|[<-|[]]].
      - apply IH in He as (H1 & x & H2 & H3). split; [exact H1|]. exists x. split; [exact H2|]. cbn [List.length]. lia.
      - split; [discriminate|]. exists s. split; [reflexivity|]. cbn [List.length]. lia. }
    assert (Hd2 : forall l s, Forall (fun e => fst e <> []) l -> In c (fold_left apply_forward l s) ->
      In c s \/ exists e, In e l /\ In c (snd e)).
    { clear. induction l as [|p l IH]; intros s Hf Hin; cbn [fold_left] in Hin; [now left|].
      inversion Hf; subst. apply IH in Hin as [Hin|(e & He & Hx)]; [|right; exists e; split; [now right|exact Hx]|assumption].
      apply forward_in in Hin as [Hin|Hin]; [now left|right; exists p; split; [now left|exact Hin]|assumption]. }
    destruct w as [|a w]; [destruct Hc|]. unfold encode in Hc. apply Hd2 in Hc.
    - destruct Hc as [Hc|(e & He & Hc)].
      + destruct Hc as [<-|Hc]; [lia|]. apply in_app_or in Hc as [Hc|[<-|[]]]; [|lia].
        apply in_map_iff in Hc as (ch & <- & Hch). unfold ascii_only in Ha. rewrite Forall_forall in Ha.
        specialize (Ha ch Hch). unfold char_to_u16. destruct (N.ltb_spec (code ch) 128); lia.
      + apply in_rev in He. rewrite E1 in He. apply C in He as (_ & x & E & Hx). rewrite E in Hc.
        destruct Hc as [<-|[]]. exact Hx.
    - apply Forall_forall. intros e He. apply in_rev in He. rewrite E1 in He. apply C in He as (H & _). exact H. }
  destruct (one_hot_bpe_partial (map (encode b) tokens) (getLargestCode b)) as (vs & E & F).
  { intros t c H1 H2 ->. specialize (G _ _ H1 H2). lia. }
  exists vs. split; [exact E|].
  assert (G2 : Forall (fun c => (c < getLargestCode b)%N) (List.concat (map (encode b) tokens))).
  { apply Forall_forall. intros c Hc. apply in_concat in Hc as (t & H1 & H2). eauto. }
  clear - F G2. induction F; constructor; inversion G2; subst; [|auto]. apply H. assumption.
Qed.
Print Assumptions one_hot_trained_model.

(** Finding: after saving and loading a trained model, encoding a text that uses the first
    learned code writes past the end of the vector. *)
Theorem one_hot_loaded_model_refuted :
  exists b n tokens, reachable b n /\
    (exists vs, one_hot_encode_bpe_tokens (map (encode b) tokens) (getLargestCode b) = Ok vs) /\
    let b' := load (new_bpe 256) (save b) in
    one_hot_encode_bpe_tokens (map (encode b') tokens) (getLargestCode b') = UB.
Proof.
  exists (xy_model 256), 1%nat, [lit "xy"]. split; [exact xy_reachable|].
  destruct (one_hot_trained_model same_order never isort 256 [lit "xy"; lit "xy"] 2 10 (xy_model 256) [lit "xy"])
    as (vs & E & _); [exact same_order_any|exact isort_sorts|lia|exact xy_256| |].
  { constructor; [|constructor]. repeat constructor. }
  split; [eauto|]. cbv zeta. rewrite xy_load.
  apply one_hot_bpe_boundary with (t := encode xy_loaded (lit "xy")); [now left|].
  vm_compute. auto.
Qed.
Print Assumptions one_hot_loaded_model_refuted.

(** C62: characters. *)
Theorem one_hot_characters :
  forall tokens, Forall ascii_only tokens ->
    exists vs, one_hot_encode_characters tokens = Ok vs /\
      Forall2 (fun c v => unit_vector 255 (N.to_nat (code c)) v) (List.concat tokens) vs.
Proof.
  intros tokens H. unfold one_hot_encode_characters.
  assert (G : forall c, In c (List.concat tokens) -> (code c < 128)%N).
  { intros c Hc. apply in_concat in Hc as (t & Ht & Hc). rewrite Forall_forall in H. specialize (H t Ht).
    unfold ascii_only in H. rewrite Forall_forall in H. auto. }
  erewrite omapM_map_ok.
  2:{ intros c Hc. specialize (G c Hc). unfold signed_char. rewrite (proj2 (N.ltb_lt _ _) G). rewrite <- N_nat_Z.
      apply vec_set_repeat. lia. }
  eexists. split; [reflexivity|].
  induction (List.concat tokens) as [|c l IH]; cbn [map]; constructor; [|apply IH; intros; apply G; now right].
  apply map_unit. specialize (G c (or_introl eq_refl)). lia.
Qed.
Print Assumptions one_hot_characters.

(** Finding: every text with a byte from 128 on writes outside the vector. *)
Theorem one_hot_characters_high_byte :
  forall tokens t c, In t tokens -> In c t -> (128 <= code c)%N -> one_hot_encode_characters tokens = UB.
Proof.
  intros tokens t c Ht Hc Hh. apply omapM_ub.
  - exists c. split; [apply in_concat; eauto|]. unfold signed_char. rewrite (proj2 (N.ltb_ge _ _) Hh).
    unfold vec_set. assert (code c < 256)%N by apply N_ascii_bounded.
    replace (0 <=? Z.of_N (code c) - 256)%Z with false by (symmetry; apply Z.leb_gt; lia). reflexivity.
  - intros x _. unfold vec_set. destruct (_ && _); discriminate.
Qed.
Print Assumptions one_hot_characters_high_byte.

(** C62: words; the vocabulary numbers its words 0 .. size - 1. *)
Theorem one_hot_words :
  forall tokens vocabulary,
    NoDup (map fst vocabulary) -> Forall (fun q => (0 <= snd q < Z.of_nat (List.length vocabulary))%Z) vocabulary ->
    exists vs, one_hot_encode_words tokens vocabulary = Ok vs /\
      Forall2 (fun t v => (forall i, In (t, i) vocabulary -> unit_vector (List.length vocabulary) (Z.to_nat i) v) /\
                          (~ In t (map fst vocabulary) -> zero_vector (List.length vocabulary) v)) tokens vs.
Proof.
  intros tokens vocabulary Hnd Hr. unfold one_hot_encode_words.
  set (n := List.length vocabulary).
  set (g := fun t : str => match find (fun q => seq_eqb (fst q) t) vocabulary with
    | Some q => map (fun k => if Nat.eqb k (Z.to_nat (snd q)) then f1 else f0) (seq 0 n) | None => repeat f0 n end).
  rewrite (omapM_map_ok _ g).
  2:{ intros t _. unfold g. destruct (find _ _) as [q|] eqn:E; [|reflexivity].
      apply find_some in E as (Hq & _). rewrite Forall_forall in Hr. specialize (Hr q Hq). fold n in Hr.
      rewrite <- vec_set_repeat by lia. f_equal. lia. }
  eexists. split; [reflexivity|].
  induction tokens as [|t l IH]; cbn [map]; constructor; [|exact IH]. unfold g. split.
  - intros i Hi. destruct (find _ _) as [q|] eqn:E.
    + apply find_some in E as (Hq & Ek). destruct (seq_eqb_spec (fst q) t) as [Ek2|]; [|discriminate].
      assert (q = (t, i)).
      { clear - Hnd Hq Hi Ek2. induction vocabulary as [|p v IH]; [destruct Hq|]. cbn [map] in Hnd. inversion Hnd; subst.
        destruct Hq as [->|Hq], Hi as [->|Hi]; auto.
        - exfalso. apply H1. apply in_map_iff. exists (fst q, i). auto.
        - exfalso. apply H1. cbn [fst]. apply in_map_iff. exists q. auto. }
      subst q. cbn [snd]. apply map_unit. rewrite Forall_forall in Hr. specialize (Hr _ Hi). cbn [snd] in Hr. lia.
    + exfalso. apply (find_none _ _ E) in Hi. cbn [fst] in Hi. destruct (seq_eqb_spec t t); [discriminate|auto].
  - intro Hn. destruct (find _ _) as [q|] eqn:E.
    + apply find_some in E as (Hq & Ek). destruct (seq_eqb_spec (fst q) t) as [Ek2|]; [|discriminate].
      exfalso. apply Hn. apply in_map_iff. eauto.
    + split; [apply repeat_length|]. intros k Hk. rewrite (repeat_seq _ _ 0), nth_error_map.
      rewrite (nth_error_nth' _ 0%nat) by (rewrite seq_length; lia). reflexivity.
Qed.
Print Assumptions one_hot_words.

(** C62: exactly the requested number of vectors, the first ones unchanged, zero vectors after. *)
Theorem pad_or_truncate_spec :
  forall tokens target size,
    let r := pad_or_truncate_tokens tokens target size in
    List.length r = target /\
    (forall k, (k < target)%nat -> (k < List.length tokens)%nat -> nth_error r k = nth_error tokens k) /\
    (forall k, (List.length tokens <= k < target)%nat -> exists v, nth_error r k = Some v /\ zero_vector size v).
Proof.
  intros tokens target size. cbv zeta. unfold pad_or_truncate_tokens. destruct (Nat.ltb_spec target (List.length tokens)).
  - split; [rewrite firstn_length; lia|]. split; [|intros; lia]. intros k Hk _.
    rewrite <- (firstn_skipn target tokens) at 2. rewrite nth_error_app1; [reflexivity|rewrite firstn_length; lia].
  - split; [rewrite app_length, repeat_length; lia|]. split.
    + intros k _ Hk. now rewrite nth_error_app1.
    + intros k Hk. exists (repeat f0 size). rewrite nth_error_app2 by lia. split.
      * rewrite (repeat_seq _ _ 0), nth_error_map. rewrite (nth_error_nth' _ 0%nat) by (rewrite seq_length; lia). reflexivity.
      * split; [apply repeat_length|]. intros j Hj. rewrite (repeat_seq _ _ 0), nth_error_map.
        rewrite (nth_error_nth' _ 0%nat) by (rewrite seq_length; lia). reflexivity.
Qed.
Print Assumptions pad_or_truncate_spec.

(** C67: embedding gives the first [sequence_length] tokens, each as a vector of the embedding
    size: the token plus the row of the position table, zeros after the token's own size. *)
Theorem embed_tokens_spec :
  forall sequence_length dimensionality pe tokens,
    (0 < sequence_length)%nat -> List.length pe = sequence_length -> Forall (fun r => (dimensionality <= List.length r)%nat) pe ->
    Forall (fun t => (List.length t <= dimensionality)%nat) (firstn sequence_length tokens) ->
    exists es, embed_tokens sequence_length dimensionality pe tokens = Ok es /\
      List.length es = Nat.min sequence_length (List.length tokens) /\
      forall p e, nth_error es p = Some e -> List.length e = dimensionality /\
        exists t row, nth_error tokens p = Some t /\ nth_error pe p = Some row /\
        (forall i a b, nth_error t i = Some a -> nth_error row i = Some b -> nth_error e i = Some (fadd a b)) /\
        (forall i, (List.length t <= i < dimensionality)%nat -> nth_error e i = Some (of_Z 0)).
Proof.
  intros sl dim pe tokens Hs Hl Hpe Ht. unfold embed_tokens.
  assert (G : forall toks p, (p < sl)%nat -> Forall (fun t => (List.length t <= dim)%nat) (firstn (sl - p) toks) ->
    exists es, embed_loop sl dim pe p toks = Ok es /\ List.length es = Nat.min (sl - p) (List.length toks) /\
      forall q e, nth_error es q = Some e -> List.length e = dim /\
        exists t row, nth_error toks q = Some t /\ nth_error pe (p + q) = Some row /\
        (forall i a b, nth_error t i = Some a -> nth_error row i = Some b -> nth_error e i = Some (fadd a b)) /\
        (forall i, (List.length t <= i < dim)%nat -> nth_error e i = Some (of_Z 0))).
  { clear Ht. induction toks as [|t toks IH]; intros p Hp Hf.
    { exists []. split; [reflexivity|]. split; [cbn; lia|]. intros [|q] e Hq; discriminate. }
    replace (sl - p)%nat with (S (sl - S p)) in Hf by lia. cbn [firstn] in Hf. inversion Hf as [|? ? Ht Hf' ]; subst.
    destruct (nth_error pe p) as [row|] eqn:Er; [|apply nth_error_None in Er; lia].
    assert (Hrow : (dim <= List.length row)%nat).
    { rewrite Forall_forall in Hpe. apply Hpe. eapply nth_error_In; eauto. }
    set (s := map (fun i => fadd (nth i t f0) (nth i row f0)) (seq 0 (List.length t))).
    assert (Ee : embed_token (List.length pe) dim pe t p = Ok (s ++ repeat f0 (dim - List.length t))).
    { unfold embed_token. destruct (Nat.leb_spec (List.length pe) p); [lia|].
      destruct (Nat.ltb_spec dim (List.length t)); [lia|]. unfold vec_at at 1. rewrite Er. cbn [obind].
      rewrite (omapM_map_ok _ (fun i => fadd (nth i t f0) (nth i row f0))); [reflexivity|].
      intros i Hi. apply in_seq in Hi. unfold vec_at.
      rewrite (nth_error_nth' t f0), (nth_error_nth' row f0) by lia. reflexivity. }
    assert (Hhd : List.length (s ++ repeat f0 (dim - List.length t)) = dim /\
        exists t0 row0, Some t = Some t0 /\ nth_error pe (p + 0) = Some row0 /\
        (forall i a b, nth_error t0 i = Some a -> nth_error row0 i = Some b -> nth_error (s ++ repeat f0 (dim - List.length t)) i = Some (fadd a b)) /\
        (forall i, (List.length t0 <= i < dim)%nat -> nth_error (s ++ repeat f0 (dim - List.length t)) i = Some (of_Z 0))).
    { assert (Ls : List.length s = List.length t) by (unfold s; rewrite map_length, seq_length; reflexivity).
      split; [rewrite app_length, repeat_length; lia|]. exists t, row. split; [reflexivity|].
      rewrite Nat.add_0_r. split; [exact Er|]. split.
      - intros i a b Ha Hb. assert (i < List.length t)%nat by (apply nth_error_Some; congruence).
        rewrite nth_error_app1 by lia. unfold s. rewrite nth_error_map.
        rewrite (nth_error_nth' _ 0%nat) by (rewrite seq_length; lia). rewrite seq_nth by lia. cbn [option_map plus].
        rewrite (nth_error_nth _ _ f0 Ha), (nth_error_nth _ _ f0 Hb). reflexivity.
      - intros i Hi. rewrite nth_error_app2 by lia. rewrite (repeat_seq _ _ 0), nth_error_map.
        rewrite (nth_error_nth' _ 0%nat) by (rewrite seq_length; lia). reflexivity. }
    cbn [embed_loop]. rewrite Ee. cbn [obind]. destruct (Nat.leb_spec (List.length pe) (S p)).
    - eexists. split; [reflexivity|]. split; [cbn [List.length]; lia|].
      intros [|q] e Hq; cbn [nth_error] in Hq; [injection Hq as <-; exact Hhd|destruct q; discriminate].
    - destruct (IH (S p)) as (es & E & El & Hes); [lia|exact Hf'|]. rewrite E. cbn [obind].
      eexists. split; [reflexivity|]. split; [cbn [List.length]; rewrite El; lia|].
      intros [|q] e Hq; cbn [nth_error] in Hq; [injection Hq as <-; exact Hhd|].
      destruct (Hes q e Hq) as (H1 & t1 & row1 & H2 & H3). split; [exact H1|]. exists t1, row1.
      rewrite Nat.add_succ_r. cbn [nth_error]. split; [exact H2|exact H3]. }
  destruct (G tokens 0%nat Hs) as (es & E & El & Hes); [now rewrite Nat.sub_0_r|].
  exists es. split; [exact E|]. split; [rewrite Nat.sub_0_r in El; exact El|exact Hes].
Qed.
Print Assumptions embed_tokens_spec.

Example one_hot_ex :
  one_hot_encode_bpe_tokens [[2; 0]; [9]]%N 4 = Ok [[f0; f0; f1; f0]; [f1; f0; f0; f0]; [f0; f0; f0; f0]].
Proof. reflexivity. Qed.
Example one_hot_words_ex :
  one_hot_encode_words [lit "b"; lit "q"] [(lit "a", 0); (lit "b", 1)]%Z = Ok [[f0; f1]; [f0; f0]].
Proof. reflexivity. Qed.
Example embed_ex :
  embed_tokens 2 3 [[f1; f0; f1; f0]; [f0; f0; f0; f0]] [[f0; f1]; [f1]; [f1; f1; f1; f1]] =
  Ok [[fadd f0 f1; fadd f1 f0; f0]; [fadd f1 f0; f0; f0]].
Proof. reflexivity. Qed.
