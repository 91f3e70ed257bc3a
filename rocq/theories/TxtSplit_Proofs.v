From Coq Require Import List Bool Arith NArith ZArith Ascii String Lia.
From Verif Require Import Outcome Chars TxtSplit_Model TxtSplit_Spec.
Import ListNotations.
Local Open Scope Z_scope.

(** Words by computation. *)
Definition wl (s : str) : list str := filter (fun w => match w with [] => false | _ => true end) (pieces SP s).

Lemma pieces_nosp w : ~ In SP w -> w <> [] -> pieces SP w = [w].
Proof.
  induction w as [|c w IH]; intros H Hn; [congruence|]. cbn [pieces].
  destruct (ceq_spec c SP) as [->|Hc]; [exfalso; apply H; now left|].
  destruct w as [|d w]; [reflexivity|]. rewrite IH; [reflexivity|intro; apply H; now right|discriminate].
Qed.
Lemma pieces_app w s : ~ In SP w -> pieces SP (w ++ SP :: s) = w :: pieces SP s.
Proof.
  induction w as [|c w IH]; intro H; cbn [pieces app]; [now rewrite ceq_refl|].
  destruct (ceq_spec c SP) as [->|Hc]; [exfalso; apply H; now left|].
  rewrite IH; [reflexivity|intro; apply H; now right].
Qed.

Lemma split_at (s : str) : ~ In SP s \/ exists w r, s = (w ++ SP :: r)%list /\ ~ In SP w.
Proof.
  induction s as [|c s IH]; [left; auto|]. destruct (ceq_spec c SP) as [->|Hc].
  - right. exists [], s. split; [reflexivity|auto].
  - destruct IH as [H|(w & r & -> & H)]; [left|right].
    + intros [E|E]; congruence || auto.
    + exists (c :: w), r. split; [reflexivity|]. intros [E|E]; congruence || auto.
Qed.

Lemma words_wl s : words s (wl s).
Proof.
  remember (List.length s) as n eqn:E. assert (H : (List.length s <= n)%nat) by lia. clear E. revert s H.
  induction n as [|n IH]; intros s H.
  { destruct s; [constructor|cbn in H; lia]. }
  destruct (split_at s) as [Hs|(w & r & -> & Hw)].
  - destruct s as [|c s]; [constructor|]. unfold wl. rewrite pieces_nosp by (auto; discriminate). cbn [filter].
    apply words_last; [discriminate|exact Hs].
  - unfold wl. rewrite pieces_app by exact Hw. rewrite app_length in H. cbn [List.length] in H.
    destruct w as [|c w]; cbn [filter app].
    + apply words_space. apply IH. lia.
    + apply (words_word (c :: w)); [discriminate|exact Hw|apply IH; lia].
Qed.

Lemma words_fun s ws : words s ws -> ws = wl s.
Proof.
  induction 1 as [|s ws H IH|w Hn Hw|w s ws Hn Hw H IH].
  - reflexivity.
  - subst. unfold wl. cbn [pieces]. change " "%char with SP. rewrite ceq_refl. reflexivity.
  - unfold wl. rewrite pieces_nosp by assumption. destruct w; [congruence|reflexivity].
  - subst. unfold wl. change " "%char with SP. rewrite pieces_app by exact Hw. destruct w; [congruence|reflexivity].
Qed.

Lemma wl_cons w r : ~ In SP w -> wl (w ++ SP :: r) = ((match w with [] => [] | _ => [w] end) ++ wl r)%list.
Proof. intro H. unfold wl. rewrite pieces_app by exact H. destruct w; reflexivity. Qed.

Lemma wl_app s t : wl (s ++ SP :: t) = (wl s ++ wl t)%list.
Proof.
  remember (List.length s) as n eqn:E. assert (H : (List.length s <= n)%nat) by lia. clear E. revert s H.
  induction n as [|n IH]; intros s H.
  { destruct s; [|cbn in H; lia]. unfold wl. cbn [pieces app]. now rewrite ceq_refl. }
  destruct (split_at s) as [Hs|(w & r & -> & Hw)].
  - unfold wl at 1. rewrite pieces_app by exact Hs. destruct s as [|c s]; [reflexivity|].
    unfold wl at 1. rewrite (pieces_nosp (c :: s)) by (auto; discriminate). reflexivity.
  - rewrite app_length in H. cbn [List.length] in H. rewrite <- app_assoc. cbn [app].
    rewrite (wl_cons w (r ++ SP :: t)), (wl_cons w r) by exact Hw. rewrite IH by lia. apply app_assoc.
Qed.

Lemma wl_nosp w : ~ In SP w -> wl w = match w with [] => [] | _ => [w] end.
Proof. intro H. destruct w as [|c w]; [reflexivity|]. unfold wl. now rewrite pieces_nosp by (auto; discriminate). Qed.

Lemma pieces_nosp_all s : Forall (fun t => ~ In SP t) (pieces SP s).
Proof.
  induction s as [|c s IH]; [constructor|]. cbn [pieces]. destruct (ceq_spec c SP) as [->|Hc].
  - constructor; [auto|exact IH].
  - destruct (pieces SP s) as [|l ls].
    + constructor; [|constructor]. intros [E|[]]; congruence.
    + inversion IH; subst. constructor; [|assumption]. intros [E|E]; congruence || auto.
Qed.

Definition nonempty (w : str) := match w with [] => false | _ => true end.

(** The loop writes the words of [cell] and of the tokens, possibly some of them twice. *)
Lemma sub_refl {A} (l : list A) : subsequence l l.
Proof. induction l; [apply sub_nil|now apply sub_keep]. Qed.
Lemma sub_app {A} (a b c d : list A) : subsequence a b -> subsequence c d -> subsequence (a ++ c) (b ++ d).
Proof.
  induction 1 as [b|x a b H IH|x a b H IH]; intro H2; cbn [app].
  - induction b; cbn [app]; [exact H2|now apply sub_skip].
  - apply sub_skip. auto.
  - apply sub_keep. auto.
Qed.
Lemma sub_trans {A} (a b c : list A) : subsequence a b -> subsequence b c -> subsequence a c.
Proof.
  intros H1 H2. revert a H1. induction H2 as [c|x b c H IH|x b c H IH]; intros a H1.
  - inversion H1; apply sub_nil.
  - apply sub_skip. auto.
  - inversion H1; subst; [apply sub_nil|apply sub_skip; auto|apply sub_keep; auto].
Qed.
Lemma sub_drop {A} (p a b : list A) : subsequence (p ++ a) b -> subsequence a b.
Proof. intro H. apply (sub_trans _ (p ++ a)); [|exact H]. clear. induction p; cbn [app]; [apply sub_refl|now apply sub_skip]. Qed.

Definition tokwords (t : str) : list str := if nonempty t then [t] else [].
Lemma flat_tokwords ts : flat_map tokwords ts = filter nonempty ts.
Proof. induction ts as [|t ts IH]; [reflexivity|]. cbn. rewrite IH. destruct t; reflexivity. Qed.

Lemma loop_sub limit near tokens : forall cell, Forall (fun t => ~ In SP t) tokens ->
  subsequence (wl cell ++ filter nonempty tokens) (flat_map wl (split_loop limit near cell tokens)).
Proof.
  induction tokens as [|t ts IH]; intros cell H; cbn [split_loop].
  { rewrite app_nil_r. destruct cell; [apply sub_nil|]. cbn [flat_map]. rewrite app_nil_r. apply sub_refl. }
  inversion H as [|? ? Ht Hts]; subst.
  assert (Ew : wl t = tokwords t) by (rewrite wl_nosp by exact Ht; destruct t; reflexivity).
  assert (Ef : filter nonempty (t :: ts) = (tokwords t ++ filter nonempty ts)%list) by (cbn; destruct t; reflexivity).
  rewrite Ef. destruct (_ <=? _).
  - cbv zeta. destruct (_ && _).
    + cbn [flat_map]. rewrite wl_app, Ew, app_assoc. apply sub_app; [apply sub_refl|].
      eapply sub_drop. apply IH. exact Hts.
    + specialize (IH (cell ++ SP :: t)%list Hts). rewrite wl_app, Ew in IH. rewrite app_assoc. exact IH.
  - cbn [flat_map]. apply sub_app; [apply sub_refl|]. rewrite <- Ew. apply IH. exact Hts.
Qed.

Lemma loop_exact limit near tokens : forall cell, Forall (fun t => ~ In SP t /\ sentence_end t = false) tokens ->
  flat_map wl (split_loop limit near cell tokens) = (wl cell ++ filter nonempty tokens)%list.
Proof.
  induction tokens as [|t ts IH]; intros cell H; cbn [split_loop].
  { rewrite app_nil_r. destruct cell; [reflexivity|]. cbn [flat_map]. apply app_nil_r. }
  inversion H as [|? ? [Ht Hd] Hts]; subst.
  assert (Ew : wl t = tokwords t) by (rewrite wl_nosp by exact Ht; destruct t; reflexivity).
  assert (Ef : filter nonempty (t :: ts) = (tokwords t ++ filter nonempty ts)%list) by (cbn; destruct t; reflexivity).
  rewrite Ef, Hd, andb_false_r. destruct (_ <=? _).
  - cbv zeta. rewrite IH by exact Hts. rewrite wl_app, Ew. symmetry. apply app_assoc.
  - cbn [flat_map]. rewrite IH by exact Hts. now rewrite Ew.
Qed.

Lemma loop_length limit near tokens : 0 <= limit < 2 ^ 64 -> forall cell,
  Forall (fun t => ~ In SP t) tokens -> len cell <= limit \/ ~ In SP cell ->
  Forall (fun r => len r <= limit \/ ~ In SP r) (split_loop limit near cell tokens).
Proof.
  intros Hl. induction tokens as [|t ts IH]; intros cell H Hc; cbn [split_loop].
  { destruct cell; constructor; [exact Hc|constructor]. }
  inversion H as [|? ? Ht Hts]; subst. unfold int_to_size at 1. rewrite Z.mod_small by lia.
  destruct (Z.leb_spec (len cell + len t + 1) limit).
  - cbv zeta. assert (L : len (cell ++ SP :: t) <= limit).
    { unfold len in *. rewrite app_length. cbn [List.length]. lia. }
    destruct (_ && _).
    + constructor; [now left|]. apply IH; [exact Hts|now right].
    + apply IH; [exact Hts|now left].
  - constructor; [exact Hc|]. apply IH; [exact Hts|now right].
Qed.

Lemma sentence_end_spec t : sentence_end t = true -> ends_sentence t.
Proof.
  unfold sentence_end, len. rewrite andb_true_iff, orb_true_iff. intros [L H]. apply Z.ltb_lt in L.
  destruct (exists_last (l := t)) as (p & b & ->); [destruct t; [cbn in L; lia|discriminate]|].
  rewrite app_length in *. cbn [List.length] in *.
  destruct (exists_last (l := p)) as (q & a & ->); [destruct p; [cbn in L; lia|discriminate]|].
  rewrite app_length in *. cbn [List.length] in *. rewrite <- app_assoc in *. cbn [app] in *.
  replace (List.length q + 1 + 1 - 1)%nat with (List.length q + 1)%nat in H by lia.
  replace (List.length q + 1 + 1 - 2)%nat with (List.length q + 0)%nat in H by lia.
  rewrite !app_nth2_plus in H. cbn [nth] in H.
  destruct H as [H|H]; [destruct (ceq_spec b DOT) as [->|]|destruct (ceq_spec a DOT) as [->|]]; try discriminate.
  - exists q, a. left. reflexivity.
  - exists q, b. right. reflexivity.
Qed.
