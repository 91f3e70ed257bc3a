From Coq Require Import Ascii String List Bool Arith NArith Lia.
From Verif Require Import Chars Outcome TextCodec_Model TextCodec_Proofs Replace_Model Replace_Spec Replace_Proofs
  Lines_Model Lines_Proofs Delimited_Model Delimited_Spec.
Import ListNotations.
Open Scope char_scope.

(** ** strip *)
Lemma isspace_white c : isspace c = true <-> white c.
Proof.
  unfold isspace, white. rewrite orb_true_iff, andb_true_iff, N.eqb_eq, !N.leb_le. lia.
Qed.
Lemma isspace_white_f c : isspace c = false <-> ~ white c.
Proof. rewrite <- isspace_white. destruct (isspace c); intuition congruence. Qed.

Lemma lstrip_id s : (forall c t, s = c :: t -> ~ white c) -> lstrip s = s.
Proof.
  destruct s as [|c t]; intro H; [reflexivity|]. cbn [lstrip].
  rewrite (proj2 (isspace_white_f c)); [reflexivity|]. eapply H; reflexivity.
Qed.
Lemma trimEnd_id s : (forall c t, s = t ++ [c] -> ~ white c) -> trimEnd s = s.
Proof.
  intro H. unfold trimEnd. rewrite lstrip_id; [apply rev_involutive|].
  intros c t E. apply (H c (rev t)). rewrite <- (rev_involutive s), E. reflexivity.
Qed.
Lemma strip_trimmed s : trimmed s -> strip s = s.
Proof. intros [H1 H2]. unfold strip. rewrite lstrip_id by auto. now apply trimEnd_id. Qed.

(** ** numbers *)
Lemma tolower_letter l c : tolower c = l -> (97 <= code l <= 122)%N -> letter_of l c.
Proof.
  unfold tolower, letter_of. destruct (isupper c) eqn:U.
  - intros E H. right. subst l. unfold code in *. rewrite N_ascii_embedding; [reflexivity|].
    unfold isupper, code in U. apply andb_true_iff in U. rewrite !N.leb_le in U. lia.
  - auto.
Qed.

Lemma ceq_true a b : ceq a b = true -> a = b.
Proof. destruct (ceq_spec a b); congruence. Qed.
Lemma ceq_neq a b : a <> b -> ceq a b = false.
Proof. destruct (ceq_spec a b); congruence. Qed.

Lemma isdigit_digit c : isdigit c = true -> digit c.
Proof. unfold isdigit, digit. rewrite andb_true_iff, !N.leb_le. lia. Qed.

Lemma starts_numeric s : starts_with_number s = true -> numeric_start s.
Proof.
  unfold starts_with_number, numeric_start.
  set (u := match s with c :: t => if ceq c "-" then t else s | [] => s end).
  intro H. exists u. split.
  - subst u. destruct s as [|c t]; [auto|]. destruct (ceq_spec c "-") as [->|]; auto.
  - clearbody u. destruct u as [|c t]; [discriminate|].
    rewrite !orb_true_iff in H. destruct H as [[[H|H]|H]|H].
    + left. exists c, t. split; auto using isdigit_digit.
    + right; left. apply andb_true_iff in H as [H1 H2]. apply ceq_true in H1. subst c.
      destruct t as [|d t]; [discriminate|]. exists d, t. split; auto using isdigit_digit.
    + right; right; left.
      destruct (strip_prefix ceq (lit "inf") (map tolower (c :: t))) as [r|] eqn:E; [|discriminate].
      apply (strip_prefix_some ceq ceq_spec) in E. destruct t as [|b [|a t]]; try discriminate.
      cbn in E. injection E as E1 E2 E3 E4.
      exists c, b, a, t. split; [reflexivity|]. repeat split; apply tolower_letter; auto; cbv; split; discriminate.
    + right; right; right.
      destruct (strip_prefix ceq (lit "nan") (map tolower (c :: t))) as [r|] eqn:E; [|discriminate].
      apply (strip_prefix_some ceq ceq_spec) in E. destruct t as [|b [|a t]]; try discriminate.
      cbn in E. injection E as E1 E2 E3 E4.
      exists c, b, a, t. split; [reflexivity|]. repeat split; apply tolower_letter; auto; cbv; split; discriminate.
Qed.

(** ** quotes *)
Definition dbl (s : str) : str := flat_map (fun c => if ceq c DQ then [DQ; DQ] else [c]) s.

Lemma replace_dbl s : replace_all ceq s [DQ] [DQ; DQ] = dbl s.
Proof.
  rewrite (replace_all_char ceq ceq_spec). unfold dbl. apply flat_map_ext. intro x.
  destruct (ceq_spec x DQ) as [E|N]; destruct (ceq_spec DQ x) as [E'|N']; congruence.
Qed.

Lemma encode_dbl s d : d <> DQ -> encodeString (dbl s) d = dbl (encodeString s d).
Proof.
  intro Hd. unfold encodeString, dbl. induction s as [|c s IH]; [reflexivity|].
  cbn [flat_map]. rewrite !flat_map_app, IH. f_equal. clear IH.
  destruct (ceq_spec c DQ) as [->|N].
  - cbn [flat_map]. unfold encode_char.
    rewrite (ceq_neq DQ d) by congruence. reflexivity.
  - cbn [flat_map]. rewrite app_nil_r. unfold encode_char.
    destruct (ceq c "<"); [reflexivity|]. destruct (ceq c d); [reflexivity|].
    destruct (ceq c NL); [reflexivity|]. cbn [flat_map]. now rewrite ceq_neq by auto.
Qed.

Lemma first_is_spec c s : first_is c s = true <-> exists t, s = c :: t.
Proof.
  destruct s as [|x t]; cbn; [split; [discriminate|intros [? [=]]]|].
  destruct (ceq_spec x c) as [->|N]; split; try congruence; eauto. intros [? [=]]. congruence.
Qed.
Lemma last_is_spec c s : last_is c s = true <-> exists t, s = t ++ [c].
Proof.
  unfold last_is. rewrite first_is_spec. split; intros [t E].
  - exists (rev t). rewrite <- (rev_involutive s), E. reflexivity.
  - exists (rev t). rewrite E, rev_app_distr. reflexivity.
Qed.

(** encoding keeps first / last characters that matter *)
Lemma encode_char_cases d c : encode_char d c = [c] \/ 
   (exists m, encode_char d c = "<" :: m ++ ["<"]) \/ (exists m, encode_char d c = "<" :: m ++ [">"]).
Proof.
  unfold encode_char. destruct (ceq c "<"); [right; left; now exists (lit "_")|].
  destruct (ceq c d); [right; right; now exists (lit "~D")|].
  destruct (ceq c NL); [right; right; now exists (lit "~N")|]. auto.
Qed.

Lemma encode_first d s x t : encodeString s d = x :: t ->
  x = "<" \/ exists t', s = x :: t'.
Proof.
  destruct s as [|c s]; [discriminate|]. cbn [encodeString flat_map].
  destruct (encode_char_cases d c) as [E|[[m E]|[m E]]]; rewrite E; cbn [app];
    intro H; injection H as -> _; eauto.
Qed.

Lemma encode_last d s x t : encodeString s d = t ++ [x] ->
  x = "<" \/ x = ">" \/ exists t', s = t' ++ [x].
Proof.
  destruct s as [|c s _] using rev_ind; [destruct t; discriminate|].
  unfold encodeString. rewrite flat_map_app. cbn [flat_map]. rewrite app_nil_r.
  destruct (encode_char_cases d c) as [E|[[m E]|[m E]]]; rewrite E.
  - intro H. apply app_inj_tail in H as [_ ->]. eauto.
  - change ("<" :: m ++ ["<"]) with (("<" :: m) ++ ["<"]). rewrite app_assoc.
    intro H. apply app_inj_tail in H as [_ ->]. auto.
  - change ("<" :: m ++ [">"]) with (("<" :: m) ++ [">"]). rewrite app_assoc.
    intro H. apply app_inj_tail in H as [_ ->]. auto.
Qed.

Lemma lt_not_white : ~ white "<".
Proof. rewrite <- isspace_white. discriminate. Qed.
Lemma gt_not_white : ~ white ">".
Proof. rewrite <- isspace_white. discriminate. Qed.

Lemma encode_trimmed d s : trimmed s -> trimmed (encodeString s d).
Proof.
  intros [H1 H2]; split.
  - intros c t E. apply encode_first in E as [->|[t' E]]; [apply lt_not_white|eauto].
  - intros c t E. apply encode_last in E as [->|[->|[t' E]]]; [apply lt_not_white|apply gt_not_white|eauto].
Qed.

Lemma DQ_lt : DQ <> "<". Proof. discriminate. Qed.
Lemma DQ_gt : DQ <> ">". Proof. discriminate. Qed.

Lemma not_quoted_bool s : ~ (exists a b, s = DQ :: a /\ s = b ++ [DQ]) ->
  first_is DQ s && last_is DQ s = false.
Proof.
  intro H. apply not_true_is_false. rewrite andb_true_iff, first_is_spec, last_is_spec.
  intros [[a Ha] [b Hb]]. eauto.
Qed.

Lemma encode_not_quoted d s : ~ (exists a b, s = DQ :: a /\ s = b ++ [DQ]) ->
  ~ (exists a b, encodeString s d = DQ :: a /\ encodeString s d = b ++ [DQ]).
Proof.
  intros H (a & b & Ea & Eb).
  apply encode_first in Ea as [E|[a' Ea]]; [now apply DQ_lt in E|].
  apply encode_last in Eb as [E|[E|[b' Eb]]]; [now apply DQ_lt in E|now apply DQ_gt in E|].
  eauto.
Qed.

(** no adjacent quotes *)
Fixpoint nodq (s : str) : Prop :=
  match s with
  | a :: ((b :: _) as t) => ~ (a = DQ /\ b = DQ) /\ nodq t
  | _ => True
  end.
Lemma nodq_spec s : ~ (exists a b, s = a ++ DQ :: DQ :: b) <-> nodq s.
Proof.
  induction s as [|x s IH].
  - split; [exact (fun _ => I)|]. intros _ (a & b & E). destruct a; discriminate.
  - destruct s as [|y s].
    + split; [exact (fun _ => I)|]. intros _ (a & b & E). destruct a as [|? [|? ?]]; discriminate.
    + cbn [nodq]. rewrite <- IH. split.
      * intro H. split; [intros [-> ->]; apply H; now exists [], s|].
        intros (a & b & E). apply H. exists (x :: a), b. now rewrite E.
      * intros [H1 H2] (a & b & E). destruct a as [|z a].
        { injection E as -> -> _. now apply H1. }
        { injection E as -> E. apply H2. eauto. }
Qed.

Lemma nodq_app_noDQ e t : ~ In DQ e -> e <> [] -> nodq t -> nodq (e ++ t).
Proof.
  revert t; induction e as [|x e IH]; intros t H Hn Ht; [congruence|].
  destruct e as [|y e].
  - cbn [app]. destruct t as [|z t]; [exact I|]. split; [|exact Ht]. intros [-> _]. apply H. now left.
  - change ((x :: y :: e) ++ t) with (x :: (y :: e ++ t)). split.
    + intros [-> _]. apply H. now left.
    + apply (IH t); [|discriminate|exact Ht]. intro; apply H; now right.
Qed.

Lemma encode_nodq d s : d <> DQ -> nodq s -> nodq (encodeString s d).
Proof.
  intro Hd. unfold encodeString. induction s as [|c s IH]; intro H; [exact I|].
  cbn [flat_map].
  assert (Hs : nodq s) by (destruct s; [exact I|apply H]).
  destruct (ceq_spec c DQ) as [->|N].
  - assert (E : encode_char d DQ = [DQ]).
    { unfold encode_char. rewrite (ceq_neq DQ d) by congruence. reflexivity. }
    rewrite E. cbn [app]. destruct (flat_map (encode_char d) s) as [|y t] eqn:Es; [exact I|].
    split; [|now apply IH]. intros [_ ->].
    apply encode_first in Es as [E'|[t' ->]]; [now apply DQ_lt in E'|].
    cbn [nodq] in H. now apply H.
  - apply nodq_app_noDQ; [| |now apply IH].
    + unfold encode_char. destruct (ceq c "<"); [cbn; intuition discriminate|].
      destruct (ceq c d); [cbn; intuition discriminate|].
      destruct (ceq c NL); [cbn; intuition discriminate|]. cbn [In]. intuition congruence.
    + destruct (encode_char_cases d c) as [E|[[m E]|[m E]]]; rewrite E; discriminate.
Qed.

Lemma nodq_replace s : nodq s -> replace_all ceq s [DQ; DQ] [DQ] = s.
Proof.
  intro H. apply (replace_all_absent ceq ceq_spec). intros i Ho.
  apply nodq_spec in H. apply H. unfold occurs_at in Ho. destruct Ho as (a & b & E & _). exists a, b. exact E.
Qed.

Section D.
Context (in_range : str -> bool) (d : ascii).

Lemma decode_encoded s : d <> DQ -> trimmed s -> nodq s ->
  ~ (exists a b, s = DQ :: a /\ s = b ++ [DQ]) -> decode d (encodeString s d) = s.
Proof.
  intros Hd Ht Hn Hq. unfold decode.
  rewrite strip_trimmed by now apply encode_trimmed.
  rewrite not_quoted_bool by now apply encode_not_quoted.
  rewrite nodq_replace by now apply encode_nodq.
  apply decode_encode.
Qed.

Lemma decode_number s : trimmed s -> ~ In DQ s -> ~ In "<" s -> decode d s = s.
Proof.
  intros Ht Hq Hl. unfold decode. rewrite strip_trimmed by auto.
  rewrite not_quoted_bool.
  - rewrite nodq_replace; [now apply decode_no_lt|]. apply nodq_spec. intros (a & b & ->).
    apply Hq. apply in_or_app. right. now left.
  - intros (a & b & -> & _). apply Hq. now left.
Qed.

Lemma scan_plain w t word res : ~ In d w -> ~ In DQ w ->
  scan d (w ++ t) false word res = scan d t false (word ++ w) res.
Proof.
  revert word; induction w as [|c w IH]; intros word Hd Hq; cbn [app]; [now rewrite app_nil_r|].
  cbn [scan]. rewrite (ceq_neq c d), (ceq_neq c DQ).
  - cbn [andb]. rewrite IH; [now rewrite <- app_assoc| |]; intro; [apply Hd|apply Hq]; now right.
  - intros ->. apply Hq. now left.
  - intros ->. apply Hd. now left.
Qed.

Lemma scan_quoted w t word res : first_is DQ t = false ->
  scan d (dbl w ++ DQ :: t) true word res = scan d t false (word ++ w) res.
Proof.
  intro Ht. revert word; induction w as [|c w IH]; intro word.
  - cbn [dbl flat_map app]. cbn [scan negb]. rewrite andb_false_r, ceq_refl, app_nil_r.
    destruct t as [|c2 t2]; [reflexivity|]. cbn [first_is] in Ht. now rewrite Ht.
  - unfold dbl. cbn [flat_map]. rewrite <- app_assoc. fold (dbl w).
    destruct (ceq_spec c DQ) as [->|N].
    + cbn [app scan negb]. rewrite andb_false_r, !ceq_refl, IH. now rewrite <- app_assoc.
    + cbn [app scan negb]. rewrite andb_false_r, (ceq_neq c DQ) by auto. rewrite IH.
      now rewrite <- app_assoc.
Qed.

(** what one written field looks like to the scanner *)
Lemma scan_field f t res : d <> DQ -> plain_field d f -> first_is DQ t = false ->
  exists w, scan d (write_field in_range d f ++ t) false [] res = scan d t false w res /\ decode d w = f.
Proof.
  intros Hd [Htr Hq Hn Hnum] Ht. apply nodq_spec in Hn. unfold write_field. rewrite strip_trimmed by auto.
  destruct f as [|c f0]; [exists []; split; [reflexivity|]; apply decode_number; auto|].
  set (f := c :: f0) in *. rewrite not_quoted_bool by auto.
  destruct (isFloat in_range f) eqn:F; cbn [negb].
  - assert (N : numeric_start f).
    { unfold isFloat in F. apply andb_true_iff in F as [F _]. now apply starts_numeric. }
    destruct (Hnum N) as (H1 & H2 & H3 & H4).
    exists f. split; [|now apply decode_number]. now rewrite scan_plain.
  - exists (encodeString f d). split; [|now apply decode_encoded].
    unfold quoted. rewrite replace_dbl, encode_dbl by auto. cbn [app].
    cbn [scan negb]. rewrite (ceq_neq DQ d) by congruence. cbn [andb]. rewrite ceq_refl.
    rewrite <- app_assoc. cbn [app]. now rewrite scan_quoted.
Qed.

Lemma field_no_nl f : d <> NL -> plain_field d f -> ~ In NL (write_field in_range d f).
Proof.
  intros Hd [Htr Hq Hn Hnum]. unfold write_field. rewrite strip_trimmed by auto.
  destruct f as [|c f0]; [intros []|]. set (f := c :: f0) in *.
  rewrite not_quoted_bool by auto.
  destruct (isFloat in_range f) eqn:F; cbn [negb].
  - apply Hnum. unfold isFloat in F. apply andb_true_iff in F as [F _]. now apply starts_numeric.
  - unfold quoted. cbn [In]. rewrite in_app_iff. intros [E|[E|E]].
    + discriminate.
    + now apply encode_no_newline in E.
    + destruct E as [E|[]]. discriminate.
Qed.

Lemma record_no_nl rec : d <> NL -> Forall (plain_field d) rec -> ~ In NL (write_record in_range d rec).
Proof.
  intros Hd H. induction H as [|f rec Hf Hr IH]; [intros []|].
  cbn [write_record]. destruct rec as [|g rec]; [now apply field_no_nl|].
  rewrite in_app_iff. intros [E|[E|E]]; [now apply field_no_nl in E|congruence|auto].
Qed.

Lemma scan_record rec res : d <> DQ -> rec <> [] -> Forall (plain_field d) rec ->
  exists w res', scan d (write_record in_range d rec) false [] res = (false, w, res') /\
     res' ++ [decode d w] = res ++ rec.
Proof.
  intros Hd Hne H. revert res. induction H as [|f rec Hf Hr IH]; intro res; [congruence|].
  cbn [write_record]. destruct rec as [|g rec].
  - destruct (scan_field f [] res Hd Hf eq_refl) as (w & E & D). rewrite app_nil_r in E.
    exists w, res. rewrite E. cbn [scan]. now rewrite D.
  - destruct (scan_field f (d :: write_record in_range d (g :: rec)) res Hd Hf) as (w & E & D).
    { cbn [first_is]. now apply ceq_neq. }
    rewrite E. cbn [scan]. rewrite ceq_refl. cbn [andb negb]. rewrite D.
    destruct (IH ltac:(discriminate) (res ++ [f])) as (w' & res' & E' & D').
    exists w', res'. split; [exact E'|]. now rewrite D', <- app_assoc.
Qed.

(** ** the record loop as a function of the remaining lines *)
Fixpoint record_lines_loop (ls : list str) (q : bool) (word : str) (res : list str)
  : outcome (list str * list str) :=
  match ls with
  | [] => if q then Throw else Ok (res ++ [decode d word], [])
  | line :: ls' =>
    let '(q', w, r) := scan d line q word res in
    if negb q' then Ok (r ++ [decode d w], ls') else record_lines_loop ls' q' (w ++ [NL]) r
  end.

Definition rep_res (x : outcome (list str * line_reader)) : outcome (list str * list str) :=
  omap (fun p => (fst p, rep (snd p))) x.

Lemma record_loop_rep fuel r q w res : length (rep r) < fuel ->
  rep_res (record_loop d fuel r q w res) = record_lines_loop (rep r) q w res.
Proof.
  revert r q w res; induction fuel as [|fuel IH]; intros r q w res H; [lia|].
  cbn [record_loop]. rewrite hasNext_rep. destruct (rep r) as [|l ls] eqn:E.
  - cbn. destruct q; cbn; [reflexivity|]. now rewrite E.
  - destruct (nextLine_rep r l ls E) as [E1 E2]. destruct (nextLine r) as [l' r']. cbn in E1, E2. subst l' ls.
    cbn [record_lines_loop]. destruct (scan d l q w res) as [[q' w'] res'].
    destruct q'; cbn [negb].
    + apply IH. cbn in H. lia.
    + reflexivity.
Qed.

Lemma pending_length skip rest : length (pending skip rest) <= length (concat rest).
Proof.
  induction rest as [|f rest IH]; cbn; [lia|]. rewrite app_length.
  destruct (body skip f) as [|b bs] eqn:B; [cbn; lia|].
  assert (length (b :: bs) <= length f); [|cbn in *; rewrite app_length; lia].
  rewrite <- B. destruct skip; cbn [body]; [destruct f; cbn; lia|lia].
Qed.

Lemma rep_size r : length (rep r) <= reader_size r.
Proof.
  unfold rep, reader_size. destruct (lr_has_next r); cbn [length]; [|lia].
  destruct (lr_open r); cbn [length]; [|lia]. rewrite app_length.
  pose proof (pending_length (lr_skip_header r) (lr_rest r)). lia.
Qed.

Lemma nextRecord_rep r : rep_res (nextRecord d r) = record_lines_loop (rep r) false [] [].
Proof. apply record_loop_rep. pose proof (rep_size r). lia. Qed.

Fixpoint records_of (fuel : nat) (ls : list str) : outcome (list (list str)) :=
  match fuel with
  | O => Ok []
  | S fuel' =>
    match ls with
    | [] => Ok []
    | _ => do x <- record_lines_loop ls false [] [];
           do rest <- records_of fuel' (snd x); Ok (fst x :: rest)
    end
  end.

Lemma read_records_rep fuel r : read_records d fuel r = records_of fuel (rep r).
Proof.
  revert r; induction fuel as [|fuel IH]; intro r; [reflexivity|].
  cbn [read_records records_of]. rewrite hasNext_rep.
  pose proof (nextRecord_rep r) as E.
  destruct (rep r) as [|l ls]; [reflexivity|]. rewrite <- E. unfold rep_res.
  destruct (nextRecord d r) as [[x r']| |]; cbn [omap obind fst snd]; [|reflexivity|reflexivity].
  now rewrite IH.
Qed.

Lemma records_of_written fuel recs : d <> DQ ->
  Forall (fun r => r <> [] /\ Forall (plain_field d) r) recs -> length recs <= fuel ->
  records_of fuel (map (write_record in_range d) recs) = Ok recs.
Proof.
  intros Hd H. revert fuel. induction H as [|r recs [Hne Hr] _ IH]; intros fuel Hf.
  - destruct fuel; reflexivity.
  - destruct fuel as [|fuel]; [cbn in Hf; lia|]. cbn [map records_of record_lines_loop].
    destruct (scan_record r [] Hd Hne Hr) as (w & res' & E & D). rewrite E. cbn [negb obind fst snd].
    rewrite IH by (cbn in Hf; lia). cbn [obind]. now rewrite D.
Qed.

Lemma round_trip recs fuel : d <> DQ -> d <> NL ->
  Forall (fun r => r <> [] /\ Forall (plain_field d) r) recs -> length recs <= fuel ->
  read_records d fuel (open_path [write_records in_range d recs] false) = Ok recs.
Proof.
  intros Hd Hn H Hf. rewrite read_records_rep, rep_open. cbn [map pending].
  rewrite app_nil_r. unfold write_records. rewrite lines_of_write.
  - now apply records_of_written.
  - rewrite Forall_map. eapply Forall_impl; [|exact H]. cbn. intros r [_ Hr]. now apply record_no_nl.
Qed.

(** ** C10: where records end and how many fields they have *)
Definition par (q : bool) (n : nat) : bool := if Nat.even n then q else negb q.

Lemma quotes_cons c s : quotes (c :: s) = (if ceq c DQ then 1 else 0) + quotes s.
Proof.
  unfold quotes. cbn [count_occ]. destruct (ascii_dec c DQ) as [->|N].
  - now rewrite ceq_refl.
  - now rewrite ceq_neq.
Qed.
Lemma quotes_app a b : quotes (a ++ b) = quotes a + quotes b.
Proof. apply count_occ_app. Qed.

Lemma par_S q n : par q (S n) = par (negb q) n.
Proof. unfold par. rewrite Nat.even_succ, <- Nat.negb_even. destruct (Nat.even n), q; reflexivity. Qed.
Lemma par_SS q n : par q (S (S n)) = par q n.
Proof. now rewrite !par_S, negb_involutive. Qed.
Lemma par_add q a b : par q (a + b) = par (par q a) b.
Proof.
  revert q; induction a as [|a IH]; intro q; [reflexivity|]. cbn [plus]. now rewrite !par_S, IH.
Qed.

(** number of separators seen by the scanner *)
Fixpoint breaks (q : bool) (s : str) : nat :=
  match s with
  | [] => 0
  | c :: t => (if ceq c d && negb q then 1 else 0) + breaks (if ceq c DQ then negb q else q) t
  end.

Lemma scan_shape n : d <> DQ -> forall s q w res, length s <= n ->
  exists w' res', scan d s q w res = (par q (quotes s), w', res') /\
    length res' = length res + breaks q s.
Proof.
  intro Hd. induction n as [|n IH]; intros s q w res Hs.
  - destruct s; [|cbn in Hs; lia]. exists w, res. cbn. unfold par. cbn. split; [reflexivity|lia].
  - destruct s as [|c t]; [exists w, res; cbn; unfold par; cbn; split; [reflexivity|lia]|].
    cbn [length] in Hs. cbn [scan breaks]. rewrite quotes_cons.
    destruct (ceq_spec c d) as [->|Nd].
    + rewrite (ceq_neq d DQ) by auto. destruct q; cbn [andb negb plus].
      * destruct (IH t true (w ++ [d]) res ltac:(lia)) as (w' & res' & E & L). eauto.
      * destruct (IH t false [] (res ++ [decode d w]) ltac:(lia)) as (w' & res' & E & L).
        exists w', res'. split; [exact E|]. rewrite L, app_length. cbn. lia.
    + cbn [andb plus]. destruct (ceq_spec c DQ) as [->|Nq].
      * cbn [plus]. rewrite par_S. destruct q; cbn [negb].
        { destruct t as [|c2 t2].
          - destruct (IH [] false w res ltac:(cbn; lia)) as (w' & res' & E & L). eauto.
          - destruct (ceq_spec c2 DQ) as [->|N2].
            + destruct (IH t2 true (w ++ [DQ]) res ltac:(cbn in Hs; lia)) as (w' & res' & E & L).
              exists w', res'. rewrite quotes_cons, ceq_refl. cbn [plus]. rewrite par_S. cbn [negb].
              split; [exact E|]. rewrite L. cbn [breaks].
              rewrite (ceq_neq DQ d) by congruence. cbn [andb plus]. now rewrite ceq_refl.
            + destruct (IH (c2 :: t2) false w res ltac:(lia)) as (w' & res' & E & L). eauto. }
        { destruct (IH t true w res ltac:(lia)) as (w' & res' & E & L). eauto. }
      * cbn [plus]. destruct (IH t q (w ++ [c]) res ltac:(lia)) as (w' & res' & E & L). eauto.
Qed.

Lemma scan_parity s q w res : d <> DQ ->
  exists w' res', scan d s q w res = (par q (quotes s), w', res') /\
    length res' = length res + breaks q s.
Proof. intro Hd. now apply (scan_shape (length s)). Qed.


Lemma breaks_app q a b : breaks q (a ++ b) = breaks q a + breaks (par q (quotes a)) b.
Proof.
  revert q; induction a as [|c a IH]; intro q; [reflexivity|].
  cbn [app breaks]. rewrite IH, quotes_cons. destruct (ceq c DQ); cbn [plus].
  - rewrite par_S. lia.
  - lia.
Qed.

Lemma record_lines_loop_shape ls : d <> DQ -> forall q w res,
  match record_lines_loop ls q w res with
  | Ok (fields, rest) =>
      (ls = [] /\ q = false /\ rest = [] /\ length fields = S (length res)) \/
      exists k, 1 <= k <= length ls /\ rest = skipn k ls /\ par q (quotes (concat (firstn k ls))) = false /\
        (forall j, 1 <= j < k -> par q (quotes (concat (firstn j ls))) = true) /\
        length fields = S (length res + breaks q (joined (firstn k ls)))
  | Throw => (ls = [] /\ q = true) \/ (ls <> [] /\ forall k, 1 <= k <= length ls -> par q (quotes (concat (firstn k ls))) = true)
  | UB => False
  end.
Proof.
  intro Hd. induction ls as [|l ls IH]; intros q w res; cbn [record_lines_loop].
  - destruct q; [left; auto|]. left. rewrite app_length. cbn. repeat split; lia.
  - destruct (scan_parity l q w res Hd) as (w' & res' & E & L). rewrite E.
    destruct (par q (quotes l)) eqn:P; cbn [negb].
    + specialize (IH true (w' ++ [NL]) res').
      destruct (record_lines_loop ls true (w' ++ [NL]) res') as [[fields rest]| |].
      * destruct IH as [(_ & [=] & _)|(k & Hk & Hr & Hp & Hj & Hl)].
        right. exists (S k). cbn [length firstn skipn concat].
        split; [lia|]. split; [exact Hr|].
        rewrite quotes_app, par_add, P. split; [exact Hp|]. split.
        { intros [|j] Hj'; [lia|]. cbn [firstn concat]. rewrite quotes_app, par_add, P.
          destruct j as [|j]; [reflexivity|]. apply Hj. lia. }
        { rewrite Hl, L. destruct ls as [|l2 ls]; [cbn in Hk; lia|]. destruct k as [|k]; [lia|].
          set (m := firstn (S k) (l2 :: ls)) in *.
          assert (J : joined (l :: m) = l ++ NL :: joined m) by reflexivity.
          rewrite J, breaks_app, P. cbn [breaks].
          rewrite andb_false_r. cbn [plus]. change (ceq NL DQ) with false. cbv iota. lia. }
      * right. split; [discriminate|]. intros [|k] Hk; [lia|]. cbn [firstn concat].
        rewrite quotes_app, par_add, P. destruct k as [|k]; [reflexivity|].
        destruct IH as [[-> _]|[_ IH]]; [cbn in Hk; lia|]. apply IH. cbn in Hk. lia.
      * exact IH.
    + right. exists 1. cbn [length firstn skipn concat joined]. rewrite app_nil_r.
      split; [lia|]. split; [reflexivity|]. split; [exact P|]. split; [intros j Hj; lia|].
      rewrite app_length, L. cbn [length]. lia.
Qed.

Lemma breaks_spec_gen s q : breaks q s =
  length (filter (fun i => match nth_error s i with
                           | Some c => Ascii.eqb c d && negb (par q (quotes (firstn i s)))
                           | None => false end) (seq 0 (length s))).
Proof.
  revert q; induction s as [|c s IH]; intro q; [reflexivity|].
  cbn [length seq filter breaks nth_error firstn].
  change (quotes []) with 0. change (par q 0) with q.
  rewrite <- seq_shift, IH.
  set (g := fun i => match nth_error (c :: s) i with
                           | Some c0 => Ascii.eqb c0 d && negb (par q (quotes (firstn i (c :: s))))
                           | None => false end).
  assert (M : forall l, length (filter g (map S l)) = length (filter (fun i => match nth_error s i with
                           | Some c0 => Ascii.eqb c0 d && negb (par (if ceq c DQ then negb q else q) (quotes (firstn i s)))
                           | None => false end) l)).
  { induction l as [|i l IHl]; [reflexivity|]. cbn [map filter].
    assert (G : g (S i) = match nth_error s i with
                           | Some c0 => Ascii.eqb c0 d && negb (par (if ceq c DQ then negb q else q) (quotes (firstn i s)))
                           | None => false end).
    { unfold g. cbn [nth_error firstn]. rewrite quotes_cons. destruct (ceq c DQ); cbn [plus]; [now rewrite par_S|reflexivity]. }
    rewrite G. destruct (match nth_error s i with Some _ => _ | None => _ end); cbn [length]; now rewrite IHl. }
  destruct (Ascii.eqb c d) eqn:E; unfold ceq at 1; rewrite E; cbn [andb].
  - destruct q; cbn [negb length plus]; rewrite <- M; reflexivity.
  - cbn [plus]. now rewrite <- M.
Qed.

Lemma breaks_spec s : breaks false s = field_breaks d s.
Proof.
  rewrite breaks_spec_gen. unfold field_breaks. f_equal. apply filter_ext. intro i.
  destruct (nth_error s i); [|reflexivity]. f_equal. unfold par. now destruct (Nat.even _).
Qed.

Lemma par_false_even n : par false n = negb (Nat.even n).
Proof. unfold par. now destruct (Nat.even n). Qed.

Lemma nextRecord_shape r lines : d <> DQ -> rep r = lines ->
  match nextRecord d r with
  | Ok (fields, r') =>
      (lines = [] /\ fields = [[]] /\ rep r' = []) \/
      exists k, record_lines lines k /\ rep r' = skipn k lines /\
                length fields = S (field_breaks d (joined (firstn k lines)))
  | Throw => lines <> [] /\ forall k, ~ record_lines lines k
  | UB => False
  end.
Proof.
  intros Hd Hr. pose proof (nextRecord_rep r) as E. rewrite Hr in E.
  pose proof (record_lines_loop_shape lines Hd false [] []) as S.
  destruct (nextRecord d r) as [[fields r']| |]; cbn [rep_res omap fst snd] in E; rewrite <- E in S.
  - destruct S as [(-> & _ & Hr' & _)|(k & Hk & Hr' & Hp & Hj & Hl)].
    + left. repeat split; auto. cbn in E. injection E as E _. exact E.
    + right. exists k. split; [|split; [exact Hr'|rewrite <- breaks_spec; exact Hl]].
      split; [exact Hk|]. split.
      * rewrite par_false_even in Hp. now apply negb_false_iff in Hp.
      * intros j Hj'. specialize (Hj j Hj'). rewrite par_false_even in Hj. now apply negb_true_iff in Hj.
  - destruct S as [[_ [=]]|[Hn S]]. split; [exact Hn|]. intros k (Hk & He & _).
    specialize (S k Hk). rewrite par_false_even, He in S. discriminate.
  - exact S.
Qed.

Lemma rep_remaining r : read_lines (reader_size r) r = rep r.
Proof. apply read_lines_rep, rep_size. Qed.

Lemma nextRecord_remaining r : d <> DQ ->
  match nextRecord d r with
  | Ok (fields, r') =>
      (read_lines (reader_size r) r = [] /\ fields = [[]] /\ read_lines (reader_size r') r' = []) \/
      exists k, record_lines (read_lines (reader_size r) r) k /\
                read_lines (reader_size r') r' = skipn k (read_lines (reader_size r) r) /\
                length fields = S (field_breaks d (joined (firstn k (read_lines (reader_size r) r))))
  | Throw => read_lines (reader_size r) r <> [] /\ forall k, ~ record_lines (read_lines (reader_size r) r) k
  | UB => False
  end.
Proof.
  intro Hd. pose proof (nextRecord_shape r _ Hd (eq_sym (rep_remaining r))) as S.
  destruct (nextRecord d r) as [[fields r']| |]; [rewrite (rep_remaining r')|..]; exact S.
Qed.

Lemma records_of_fuel ls : d <> DQ -> forall n m, length ls <= n -> length ls <= m -> records_of n ls = records_of m ls.
Proof.
  intros Hd n. revert ls; induction n as [|n IH]; intros ls m Hn Hm.
  - destruct ls; [destruct m; reflexivity|cbn in Hn; lia].
  - destruct ls as [|l ls]; [destruct m; reflexivity|].
    destruct m as [|m]; [cbn in Hm; lia|]. cbn [records_of].
    pose proof (record_lines_loop_shape (l :: ls) Hd false [] []) as S.
    destruct (record_lines_loop (l :: ls) false [] []) as [[f rest]| |]; cbn [obind]; try reflexivity.
    cbn [fst snd].
    assert (Hr : length rest <= length ls).
    { destruct S as [([=] & _)|(k & Hk & -> & _)]. rewrite skipn_length. cbn [length] in *. lia. }
    rewrite (IH rest m); [reflexivity| |]; cbn [length] in *; lia.
Qed.

Lemma read_records_total files skip n : d <> DQ -> total_lines files <= n ->
  read_records d n (open_path files skip) = read_records d (total_lines files) (open_path files skip) /\
  read_records d n (open_path files skip) <> UB.
Proof.
  intros Hd Hn. rewrite !read_records_rep.
  assert (L : length (rep (open_path files skip)) <= total_lines files).
  { destruct (rep_open_prefix files skip) as [t E].
    pose proof (body_length skip (map lines_of files)) as B. rewrite E, app_length in B.
    unfold total_lines. lia. }
  split; [apply records_of_fuel; auto; lia|].
  generalize (rep (open_path files skip)) as ls. clear - Hd. induction n as [|n IH]; intros ls; [discriminate|].
  cbn [records_of]. destruct ls as [|l ls]; [discriminate|].
  pose proof (record_lines_loop_shape (l :: ls) Hd false [] []) as S.
  destruct (record_lines_loop (l :: ls) false [] []) as [[f rest]| |]; cbn [obind]; [|discriminate|contradiction].
  cbn [snd]. specialize (IH rest). destruct (records_of n rest); cbn [obind]; congruence.
Qed.
End D.
