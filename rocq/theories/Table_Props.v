(** C61: result tables are aligned. *)
From Coq Require Import List Bool Arith Ascii String Lia.
From Verif Require Import Outcome Chars Table_Model.
Import ListNotations.

(** The line is made of fields of the given widths with bars between them. *)
Definition aligned (widths : list nat) (line : str) : Prop :=
  exists fields, line = bars fields /\ map (@List.length ascii) fields = widths.

Lemma setw_length w s : List.length (setw w s) = Nat.max w (List.length s).
Proof. unfold setw. rewrite app_length, repeat_length. lia. Qed.

Lemma fields_ok (vals : list str) : forall pre widths, List.length widths = List.length vals ->
  omapM (fun p => do w <- vec_at (pre ++ widths) (fst p); Ok (setw w (snd p))) (combine (seq (List.length pre) (List.length vals)) vals) =
  Ok (map (fun p => setw (fst p) (snd p)) (combine widths vals)).
Proof.
  induction vals as [|v vals IH]; intros pre widths L; [destruct widths; reflexivity|]. destruct widths as [|w widths]; [discriminate|].
  cbn [List.length seq combine omapM map fst snd]. unfold vec_at at 1. rewrite nth_error_app2, Nat.sub_diag by lia. cbn [nth_error obind].
  specialize (IH (pre ++ [w]) widths). rewrite app_length in IH. cbn [List.length] in IH. rewrite Nat.add_1_r, <- app_assoc in IH. cbn [app] in IH.
  rewrite IH by (cbn in L; lia). reflexivity.
Qed.

Lemma aligned_fields widths vals : Forall2 (fun w v => List.length v <= w) widths vals ->
  aligned widths (bars (map (fun p => setw (fst p) (snd p)) (combine widths vals))).
Proof.
  intro F. eexists. split; [reflexivity|]. induction F as [|w v ws vs H F IH]; [reflexivity|]. cbn [combine map fst snd].
  rewrite setw_length, IH. f_equal. lia.
Qed.

Lemma Forall2_len {A B} (R : A -> B -> Prop) l k : Forall2 R l k -> List.length l = List.length k.
Proof. induction 1; cbn; congruence. Qed.

Lemma fitting_row : forall widths (row_values : list (list str)),
  Forall2 (fun w cell => forall line, In line cell -> List.length line <= w) widths row_values ->
  exists lines, print_row row_values widths = Ok lines /\ Forall (aligned widths) lines /\ List.length lines = max_height row_values.
Proof.
  intros widths rows F. unfold print_row. generalize (max_height rows). intro n.
  assert (G : forall h, exists line, omap bars (omapM (fun p : nat * list str => do w <- vec_at widths (fst p); Ok (setw w (nth h (snd p) []))) (combine (seq 0 (List.length rows)) rows)) = Ok line /\ aligned widths line).
  { intro h. pose proof (fields_ok (map (fun c : list str => nth h c []) rows) [] widths) as E. cbn [app List.length] in E. rewrite map_length in E.
    specialize (E (Forall2_len _ _ _ F)).
    assert (E2 : forall k, omapM (fun p => do w <- vec_at widths (fst p); Ok (setw w (snd p))) (combine (seq k (List.length rows)) (map (fun c : list str => nth h c []) rows)) =
                 omapM (fun p : nat * list str => do w <- vec_at widths (fst p); Ok (setw w (nth h (snd p) []))) (combine (seq k (List.length rows)) rows)).
    { clear. induction rows as [|r rows IH]; intro k; [reflexivity|]. cbn [map List.length seq combine omapM fst snd]. now rewrite IH. }
    rewrite <- (E2 0). match type of E with ?l = ?r => change l with (omapM (fun p => do w <- vec_at widths (fst p); Ok (setw w (snd p))) (combine (seq 0 (List.length rows)) (map (fun c : list str => nth h c []) rows))) in E end. rewrite E. cbn [omap]. eexists. split; [reflexivity|]. apply aligned_fields.
    clear - F. induction F as [|w c ws cs H F IH]; [constructor|]. cbn [map]. constructor; [|exact IH].
    destruct (nth_in_or_default h c ([] : str)) as [Hin|E0]; [now apply H|change ascii with Ascii.ascii; unfold str in *; rewrite E0; cbn; lia]. }
  unfold str in *. match goal with |- exists lines, omapM ?g _ = _ /\ _ => set (f := g) end.
  assert (G2 : forall h, exists line, f h = Ok line /\ aligned widths line) by exact G. clearbody f. clear G.
  generalize 0 as k. induction n as [|n IH]; intro k; cbn [seq omapM]; [exists []; repeat split; constructor|].
  destruct (G2 k) as (line & -> & Hl). cbn [obind]. destruct (IH (S k)) as (lines & -> & Hls & L). cbn [obind].
  exists (line :: lines). split; [reflexivity|]. split; [now constructor|cbn; lia].
Qed.
Lemma max_height_spec : forall rows, (forall cell, In cell rows -> List.length cell <= max_height rows) /\ (0 < max_height rows -> exists cell, In cell rows /\ List.length cell = max_height rows).
Proof.
  intros rows. unfold max_height. assert (G : forall rows m, m <= fold_left (fun m (v : list str) => Nat.max m (List.length v)) rows m /\ (forall cell, In cell rows -> List.length cell <= fold_left (fun m v => Nat.max m (List.length v)) rows m) /\
    (fold_left (fun m v => Nat.max m (List.length v)) rows m = m \/ exists cell, In cell rows /\ List.length cell = fold_left (fun m v => Nat.max m (List.length v)) rows m)).
  { clear. induction rows as [|r rows IH]; intros m; cbn [fold_left In]; [split; [lia|]; split; [intros ? []|now left]|]. destruct (IH (Nat.max m (List.length r))) as (A & B & C). split; [lia|]. split.
    - intros cell [<-|H]; [lia|now apply B].
    - destruct C as [C|(cell & H & C)]; [|right; exists cell; split; [now right|exact C]]. destruct (Nat.max_dec m (List.length r)) as [D|D]; [left; lia|]. right. exists r. split; [now left|lia]. }
  destruct (G rows 0) as (_ & B & C). split; [exact B|]. intros P. destruct C as [C|C]; [lia|exact C].
Qed.
(** A row whose texts fit the widths is printed in lines aligned with the widths: as many as the tallest cell has,
    and line [h] has the [h]th line of every cell (nothing where the cell is shorter), right-aligned. *)
(** Partial, C61: rows that fit; other rows are refuted. *)
Theorem fitting_row_aligned_partial : forall widths (row_values : list (list str)),
  Forall2 (fun w cell => forall line, In line cell -> List.length line <= w) widths row_values ->
  exists lines, print_row row_values widths = Ok lines /\ Forall (aligned widths) lines /\
    (forall cell, In cell row_values -> List.length cell <= List.length lines) /\ (lines <> [] -> exists cell, In cell row_values /\ List.length cell = List.length lines) /\
    forall h line, nth_error lines h = Some line -> line = bars (map (fun p => repeat (ascii_of_nat 32) (fst p - List.length (nth h (snd p) [])) ++ nth h (snd p) []) (combine widths row_values)).
Proof.
  intros widths rows F. destruct (fitting_row widths rows F) as (lines & E & A & L). exists lines. split; [exact E|]. split; [exact A|]. destruct (max_height_spec rows) as [M1 M2]. rewrite L. split; [exact M1|].
  split; [intros N; apply M2; rewrite <- L; destruct lines; [contradiction|cbn; lia]|].
  intros h line Hh. unfold print_row in E. revert E Hh L. generalize (max_height rows). clear M1 M2 A.
  assert (G : forall h, omapM (fun p : nat * list str => do w <- vec_at widths (fst p); Ok (setw w (nth h (snd p) []))) (combine (seq 0 (List.length rows)) rows) =
     Ok (map (fun p => setw (fst p) (nth h (snd p) [])) (combine widths rows))).
  { assert (Lw := Forall2_len _ _ _ F). clear - Lw. intros h. pose proof (fields_ok (map (fun c : list str => nth h c []) rows) [] widths) as E. cbn [app List.length] in E. rewrite map_length in E. specialize (E Lw).
    assert (E2 : forall k, omapM (fun p => do w <- vec_at widths (fst p); Ok (setw w (snd p))) (combine (seq k (List.length rows)) (map (fun c : list str => nth h c []) rows)) =
                 omapM (fun p : nat * list str => do w <- vec_at widths (fst p); Ok (setw w (nth h (snd p) []))) (combine (seq k (List.length rows)) rows)).
    { clear. induction rows as [|r rows IH]; intro k; [reflexivity|]. cbn [map List.length seq combine omapM fst snd]. now rewrite IH. }
    rewrite <- (E2 0). etransitivity; [exact E|]. f_equal. clear. revert widths. induction rows as [|r rows IH]; intros [|w widths]; try reflexivity. cbn [map combine fst snd]. f_equal. apply IH. }
  intros n E Hh L.
  assert (Q : forall (f : nat -> outcome str) n k lines h line, omapM f (seq k n) = Ok lines -> nth_error lines h = Some line -> f (k + h) = Ok line).
  { clear. induction n as [|n IH]; intros k lines h line E H; cbn [seq omapM] in E; [injection E as <-; destruct h; discriminate|]. destruct (f k) as [x| |] eqn:Ef; cbn [obind] in E; try discriminate.
    destruct (omapM f (seq (S k) n)) as [l| |] eqn:El; cbn [obind] in E; try discriminate. injection E as <-. destruct h as [|h]; [injection H as <-; now rewrite Nat.add_0_r|]. rewrite <- Nat.add_succ_comm. exact (IH _ _ _ _ El H). }
  apply (Q _ _ _ _ _ _ E) in Hh. cbv beta in Hh. rewrite Nat.add_0_l in Hh. specialize (G h). unfold str in *. rewrite G in Hh. cbn [omap] in Hh. injection Hh as <-. reflexivity.
Qed.
Print Assumptions fitting_row_aligned_partial.

(** C61: the header and the first row (from which the widths are taken) are aligned. *)
Theorem header_and_first_row_aligned : forall names row_values widths, column_widths names row_values = Ok widths ->
  (exists line, print_header names widths = Ok line /\ aligned widths line) /\
  (exists lines, print_row row_values widths = Ok lines /\ Forall (aligned widths) lines).
Proof.
  intros names rows widths H. unfold column_widths in H. destruct (Nat.eqb_spec (List.length names) (List.length rows)) as [L|]; [|discriminate].
  injection H as <-. 
  assert (M : forall (c : list str) m, m <= fold_left (fun m v => Nat.max m (List.length v)) c m /\ forall line, In line c -> List.length line <= fold_left (fun m v => Nat.max m (List.length v)) c m).
  { induction c as [|x c IH]; intro m; cbn [fold_left]; [split; [lia|intros ? []]|]. destruct (IH (Nat.max m (List.length x))) as [H1 H2].
    split; [lia|]. intros line [<-|Hl]; [lia|now apply H2]. }
  split.
  - unfold print_header. set (widths := map _ _).
    pose proof (fields_ok names [] widths) as E. cbn [app List.length] in E. rewrite E.
    + cbn [omap]. eexists. split; [reflexivity|]. apply aligned_fields. subst widths. clear E. revert rows L.
      induction names as [|n names IH]; intros [|r rows] L; try discriminate; constructor; [exact (proj1 (M r (List.length n)))|]. apply IH. cbn in L. lia.
    + subst widths. rewrite map_length, combine_length. lia.
  - destruct (fitting_row (map (fun p => fold_left (fun m v => Nat.max m (List.length v)) (snd p) (List.length (fst p))) (combine names rows)) rows) as (lines & E & F & _).
    + revert rows L. induction names as [|n names IH]; intros [|r rows] L; try discriminate; constructor; [exact (proj2 (M r (List.length n)))|]. apply IH. cbn in L. lia.
    + eauto.
Qed.
Print Assumptions header_and_first_row_aligned.

(** Finding: a later row with a longer text is not aligned (widths come from the first row). *)
Theorem later_row_aligned_refuted : exists names first later widths lines,
  column_widths names first = Ok widths /\ List.length later = List.length names /\
  print_row later widths = Ok lines /\ ~ Forall (fun l => List.length l = List.length (bars (map (fun w => repeat (ascii_of_nat 32) w) widths))) lines.
Proof.
  exists [lit "n"], [[lit "1"]], [[lit "1000"]]. eexists. eexists. split; [vm_compute; reflexivity|]. split; [reflexivity|]. split; [vm_compute; reflexivity|].
  intro F. inversion F; subst. vm_compute in H1. discriminate.
Qed.
Print Assumptions later_row_aligned_refuted.

Example table_ex : exists widths, column_widths [lit "name"; lit "v"] [[lit "a"; lit "bc"]; [lit "12345"]] = Ok widths /\
  print_header [lit "name"; lit "v"] widths = Ok (lit "name|    v") /\
  print_row [[lit "a"; lit "bc"]; [lit "12345"]] widths = Ok [lit "   a|12345"; lit "  bc|     "].
Proof. eexists. split; [vm_compute; reflexivity|]. split; vm_compute; reflexivity. Qed.
