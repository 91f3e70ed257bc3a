(** Properties of the statement that creates a dataset. *)
From Coq Require Import List Arith NArith Bool String Ascii Lia.
From Verif Require Import Outcome Chars Lines_Model Lines_Proofs Delimited_Model Delimited_Spec Delimited_Proofs FileSort_Model FileSort_Spec FileSort_Proofs
  Columns_Model Columns_Spec Columns_Proofs CreateDataset_Model CreateDataset_Spec CreateDataset_Proofs.
Import ListNotations.
Local Open Scope nat_scope.
Local Open Scope list_scope.

Section Properties.
(** Whatever can be written, whatever the priority queue, [std::sort] and the number scanner do, and whatever the contents are. *)
Context (can_write : str -> bool) (pick : heap -> option ((str * list str) * heap)) (sort : list group -> list group) (in_range : str -> bool).
Context (chunk_size : nat) (convert_txt convert_tsv : str -> str) (encode : list group -> str -> outcome str) (scale : str -> outcome str).
Notation run := (run can_write).
Notation execute := (execute can_write pick sort in_range chunk_size convert_txt convert_tsv encode scale).
Notation csv_file base := (lit "file://" ++ base ++ lit ".csv").

(** * C90: creating a dataset leaves other files alone *)

(** For a csv file, at every moment, whether the statement ends well or not: every file is as before, except for those named after the
    source, the numbered chunk files beside it and the two files of the dataset. *)
Theorem create_dataset_keeps_files_partial : forall fs name base has_header column_groups k p, ~ own_file name base p ->
  run (firstn k (fst (execute fs name (csv_file base) has_header column_groups))) fs p = fs p.
Proof.
  intros fs name base hh cgs k p Hp. apply run_frame.
  assert (F : Forall (fun o => own_file name base (path_of o)) (fst (execute fs name (csv_file base) hh cgs))).
  { destruct (execute_csv can_write pick sort in_range chunk_size convert_txt convert_tsv encode scale fs name _ hh cgs base eq_refl) as [[-> _]|(E & [[-> _]|(content & _ & H)])];
    [constructor..|]. rewrite H by (auto; exact E). apply build_own. }
  rewrite <- (firstn_skipn k (fst _)) in F. apply Forall_app in F as [F _]. eapply Forall_impl; [|exact F]. cbn. intros o Ho Eo. apply Hp. now rewrite <- Eo.
Qed.

(** In particular the source is never changed. *)
Theorem create_dataset_keeps_source : forall fs name base has_header column_groups k,
  run (firstn k (fst (execute fs name (csv_file base) has_header column_groups))) fs (base ++ lit ".csv") = fs (base ++ lit ".csv").
Proof. intros. apply create_dataset_keeps_files_partial. apply csv_not_own. Qed.

(** Finding: files of the user with the names of the temporary files are lost. *)
Theorem neighbours_lost_refuted : forall fs name base has_header column_groups, (forall p, own_file name base p -> can_write p = true) -> fs (dataset_file name) = None ->
  snd (execute fs name (csv_file base) has_header column_groups) = Succeeded ->
  let fs' := run (fst (execute fs name (csv_file base) has_header column_groups)) fs in
  fs' (base ++ lit ".sorted.csv") = None /\ fs' (base ++ lit ".given-expected.csv") = None.
Proof.
  intros fs name base hh cgs W E0 S0. rewrite <- final_dataset_file in E0.
  destruct (execute_csv can_write pick sort in_range chunk_size convert_txt convert_tsv encode scale fs name _ hh cgs base eq_refl) as [[_ N]|(E & [[H _]|(content & Hc & H)])].
  - contradiction.
  - rewrite H in S0. discriminate.
  - cbv zeta. rewrite H in * by auto.
    destruct (build_made can_write pick in_range chunk_size encode scale fs name base hh (sort (map group_of cgs)) content W Hc) as (_ & _ & G).
    destruct (G S0) as (G1 & G2 & _). auto.
Qed.

(** Finding: a text or tsv file is never converted, because it is looked for with "file://" in its name ... *)
Theorem text_source_refuted : forall fs name base ext has_header column_groups, ext = lit "txt" \/ ext = lit "tsv" ->
  let location := lit "file://" ++ base ++ lit "." ++ ext in
  fs location = None -> fs (dataset_file name) = None -> snd (execute fs name location has_header column_groups) = Failed.
Proof.
  intros fs name base ext hh cgs He location El Ef. unfold CreateDataset_Model.execute, dataset_exists, present. rewrite <- final_dataset_file in Ef. rewrite Ef.
  change (firstn 7 location) with (lit "file://"). rewrite seq_eqb_refl'. cbn [negb]. destruct cgs as [|cg cgs]; [reflexivity|].
  destruct (negb (forallb _ _)); [reflexivity|]. unfold sort_and_check_overlaps. destruct (has_overlap _); [reflexivity|].
  change (skipn 7 location) with (base ++ "."%char :: ext). rewrite split_last_at by (destruct He as [-> | ->]; cbn; intuition discriminate).
  rewrite El. destruct He as [-> | ->]; reflexivity.
Qed.

(** ... but before that, a csv file of the same name has been emptied. *)
Theorem text_source_destroys_refuted : forall fs name base ext has_header start id, sorts sort -> ext = lit "txt" \/ ext = lit "tsv" ->
  let location := lit "file://" ++ base ++ lit "." ++ ext in
  let column_groups := [{| data_type := lit "text"; use := lit "given"; start := start; count := 1; id := id |}] in
  fs location = None -> fs (dataset_file name) = None -> can_write (base ++ lit ".csv") = true ->
  execute fs name location has_header column_groups = ([Truncate (base ++ lit ".csv")], Failed) /\
  run [Truncate (base ++ lit ".csv")] fs (base ++ lit ".csv") = Some [].
Proof.
  intros fs name base ext hh st i Hs He location column_groups El Ef W. split.
  2: { cbn [CreateDataset_Model.run fold_left CreateDataset_Model.step]. rewrite W. apply put_same. }
  unfold CreateDataset_Model.execute, dataset_exists, present. rewrite <- final_dataset_file in Ef. rewrite Ef.
  change (firstn 7 location) with (lit "file://"). rewrite seq_eqb_refl'. cbn [negb]. unfold column_groups at 1 2.
  change (negb (forallb acceptable _)) with false. cbv iota. unfold sort_and_check_overlaps.
  assert (Eg : sort (map group_of column_groups) = map group_of column_groups).
  { destruct (Hs (map group_of column_groups)) as [P _]. cbn [column_groups map] in *. now apply Permutation.Permutation_length_1_inv in P. }
  fold column_groups. rewrite Eg. cbn [column_groups map has_overlap].
  change (skipn 7 location) with (base ++ "."%char :: ext). rewrite split_last_at by (destruct He as [-> | ->]; cbn; intuition discriminate).
  rewrite El. destruct He as [-> | ->]; reflexivity.
Qed.

(** * C91: a dataset that is there is complete *)

(** If the statement is not interrupted and all its files can be written, the dataset is there afterwards exactly if success is reported. *)
Theorem created_dataset_is_there_partial : forall fs name base has_header column_groups, (forall p, own_file name base p -> can_write p = true) -> fs (dataset_file name) = None ->
  let e := execute fs name (csv_file base) has_header column_groups in
  snd e = Succeeded <-> run (fst e) fs (dataset_file name) <> None.
Proof.
  intros fs name base hh cgs W E0. rewrite <- final_dataset_file in *.
  destruct (execute_csv can_write pick sort in_range chunk_size convert_txt convert_tsv encode scale fs name _ hh cgs base eq_refl) as [[_ N]|(E & [[H _]|(content & Hc & H)])].
  - contradiction.
  - cbv zeta. rewrite H. cbn. split; [discriminate|contradiction].
  - cbv zeta. rewrite H by auto.
    destruct (build_made can_write pick in_range chunk_size encode scale fs name base hh (sort (map group_of cgs)) content W Hc) as (G1 & G2 & _).
    rewrite G1, G2. unfold made. destruct (prepare _ _ _ _) as [[|r rs]| | ]; cbn [fst snd]; try (rewrite E; split; [discriminate|contradiction]).
    destruct (encode _ _) as [rw| | ]; cbn [fst snd]; try (rewrite E; split; [discriminate|contradiction]).
    destruct (scale rw); cbn [fst snd]; try (rewrite E; split; [discriminate|contradiction]). split; [discriminate|reflexivity].
Qed.

(** If the process is killed before the dataset is there, repeating the statement has the result that it would have had. *)
Theorem create_after_crash_partial : forall fs name base has_header column_groups k, (forall p, own_file name base p -> can_write p = true) ->
  let e := execute fs name (csv_file base) has_header column_groups in
  let crashed := run (firstn k (fst e)) fs in
  crashed (dataset_file name) = None ->
  let e' := execute crashed name (csv_file base) has_header column_groups in
  snd e' = snd e /\ run (fst e') crashed (dataset_file name) = run (fst e) fs (dataset_file name).
Proof.
  intros fs name base hh cgs k W e crashed Ec. cbv zeta.
  pose proof (create_dataset_keeps_source fs name base hh cgs k : crashed (base ++ lit ".csv") = fs (base ++ lit ".csv")) as Es. rewrite <- final_dataset_file in *.
  destruct (execute_csv can_write pick sort in_range chunk_size convert_txt convert_tsv encode scale fs name _ hh cgs base eq_refl) as [[H N]|(E & [[H H']|(content & Hc & H)])].
  - exfalso. unfold crashed, e in Ec. rewrite H in Ec. destruct k; cbn in Ec; contradiction.
  - rewrite (H' can_write crashed Ec Es). unfold e. rewrite H. cbn [fst snd]. split; [reflexivity|]. change (run [] crashed) with crashed. change (run [] fs) with fs. now rewrite Ec.
  - rewrite (H can_write crashed Ec Es). unfold e. rewrite (H can_write fs) by auto.
    destruct (build_made can_write pick in_range chunk_size encode scale fs name base hh (sort (map group_of cgs)) content W Hc) as (G1 & G2 & _).
    rewrite <- Es in Hc.
    destruct (build_made can_write pick in_range chunk_size encode scale crashed name base hh (sort (map group_of cgs)) content W Hc) as (G1' & G2' & _).
    rewrite G1, G1', G2, G2', E, Ec. split; reflexivity.
Qed.

(** Finding: if the process is killed while the dataset is written, any first part of it is taken for the dataset, and repeating the
    statement reports success and does nothing. *)
Theorem interrupted_dataset_refuted : forall fs name base has_header column_groups, (forall p, own_file name base p -> can_write p = true) -> fs (dataset_file name) = None ->
  let e := execute fs name (csv_file base) has_header column_groups in
  snd e = Succeeded ->
  exists complete, run (fst e) fs (dataset_file name) = Some complete /\
  forall part rest, complete = part ++ rest -> exists k, let crashed := run (firstn k (fst e)) fs in
    crashed (dataset_file name) = Some part /\ execute crashed name (csv_file base) has_header column_groups = ([], Succeeded).
Proof.
  intros fs name base hh cgs W E0 e S0. rewrite <- final_dataset_file in *.
  destruct (execute_csv can_write pick sort in_range chunk_size convert_txt convert_tsv encode scale fs name _ hh cgs base eq_refl) as [[_ N]|(E & [[H _]|(content & Hc & H)])].
  - contradiction.
  - unfold e in S0. rewrite H in S0. discriminate.
  - unfold e in *. rewrite H in * by auto.
    destruct (build_made can_write pick in_range chunk_size encode scale fs name base hh (sort (map group_of cgs)) content W Hc) as (_ & G2 & G3).
    destruct (G3 S0) as (_ & _ & ops & f & Eb & Em & Hops). rewrite Em in G2. exists f. split; [exact G2|].
    intros part rest ->. exists (List.length (ops ++ write_file (get_dataset_path name ++ lit "/dataset.bin") part)). cbv zeta. rewrite Eb.
    assert (Ew : ops ++ write_file (get_dataset_path name ++ lit "/dataset.bin") (part ++ rest) ++ [Remove (get_dataset_path name ++ lit "/raw.bin")]
      = (ops ++ write_file (get_dataset_path name ++ lit "/dataset.bin") part) ++ map (Append (get_dataset_path name ++ lit "/dataset.bin")) rest ++ [Remove (get_dataset_path name ++ lit "/raw.bin")]).
    { unfold write_file. rewrite map_app. rewrite <- !List.app_assoc. cbn [List.app]. now rewrite <- !List.app_assoc. }
    rewrite Ew. rewrite firstn_app, firstn_all, Nat.sub_diag. cbn [firstn]. rewrite List.app_nil_r.
    assert (Ep : run (ops ++ write_file (get_dataset_path name ++ lit "/dataset.bin") part) fs (get_dataset_path name ++ lit "/dataset.bin") = Some part).
    { rewrite run_app. apply run_write. apply W, own_final. }
    split; [exact Ep|]. unfold CreateDataset_Model.execute, dataset_exists, present. now rewrite Ep.
Qed.

(** * C92: the dataset is made of the records of the file *)

(** If all files can be written, the rows are made from exactly the different records of the source, each reduced to the chosen columns;
    for records that are long enough and fields that a delimited file can hold (see C09). *)
Theorem dataset_of_records_partial : forall fs name base has_header column_groups (content : str) records, min_queue pick -> (forall p, own_file name base p -> can_write p = true) ->
  fs (dataset_file name) = None -> fs (base ++ lit ".csv") = Some content ->
  read_records "," (S (List.length content)) (open_path [content] has_header) = Ok records ->
  let gs := sort (map group_of column_groups) in
  (forall record, In record records -> (N.of_nat (List.length record) < 2 ^ 64)%N /\ Forall (fun g => start_index g + source_column_count g <= N.of_nat (List.length record))%N gs /\
     chosen gs record <> [] /\ chosen gs record <> [[]] /\ Forall (plain_field ","%char) (chosen gs record)) ->
  let e := execute fs name (csv_file base) has_header column_groups in
  snd e = Succeeded ->
  exists text rows raw final, NoDup rows /\ (forall row, In row rows <-> exists record, In record records /\ row = chosen gs record) /\
    (forall rounds, List.length rows <= rounds -> read_records "," rounds (open_path [text] false) = Ok rows) /\
    encode (updated_groups gs) text = Ok raw /\ scale raw = Ok final /\ run (fst e) fs (dataset_file name) = Some final.
Proof.
  intros fs name base hh cgs content records Hp W E0 Ec Er gs Hr e S0. rewrite <- final_dataset_file in *.
  destruct (execute_csv can_write pick sort in_range chunk_size convert_txt convert_tsv encode scale fs name _ hh cgs base eq_refl) as [[_ N]|(E & [[H _]|(content' & Hc & H)])].
  - contradiction.
  - unfold e in S0. rewrite H in S0. discriminate.
  - unfold e in *. rewrite H in * by auto. rewrite Ec in Hc. injection Hc as <-.
    destruct (build_made can_write pick in_range chunk_size encode scale fs name base hh gs content W Ec) as (G1 & G2 & _).
    fold gs in S0 |- *. rewrite G1 in S0. rewrite G2. unfold made in *.
    assert (P : prepare (given_groups gs) (expected_groups gs) content hh = Ok (map (chosen gs) records)).
    { unfold prepare. change (open_path [content] hh) with (open_path (@cons str content (@nil str)) hh) in Er. rewrite Er. cbn [obind]. clear - Hr. induction records as [|r rs IH]; [reflexivity|]. cbn [omapM map].
      destruct (Hr r (or_introl eq_refl)) as (L & F & _). rewrite new_record_ok; [|exact L|].
      2: { apply Forall_app. split; apply Forall_forall; intros g Hg; apply filter_In in Hg as [Hg _]; rewrite Forall_forall in F; now apply F. }
      cbn [obind]. rewrite IH; [reflexivity|]. intros; apply Hr; now right. }
    rewrite P in *. destruct (map (chosen gs) records) as [|r rs] eqn:Em; [discriminate|].
    destruct (encode (updated_groups gs) (good_text pick in_range chunk_size (r :: rs))) as [rw| | ] eqn:Ee; try discriminate.
    destruct (scale rw) as [f| | ] eqn:Ef; try discriminate. cbn [fst snd].
    destruct (good_text_records pick in_range chunk_size Hp (r :: rs)) as (R & R1 & R2 & R3).
    { rewrite <- Em. apply Forall_map, Forall_forall. intros x Hx. apply Hr, Hx. }
    exists (good_text pick in_range chunk_size (r :: rs)), R, rw, f. split; [exact R1|]. split; [|split; [exact R3|repeat split; assumption]].
    intro row. rewrite R2, <- Em, in_map_iff. split; intros (x & A & B); exists x; auto.
Qed.

(** Finding: a source without a folder in its name is sorted through chunk files in the root folder. If these cannot be written, a
    statement that would succeed otherwise still reports success, but the dataset is made from no records. *)
Theorem folderless_source_refuted : forall fs name base has_header column_groups content raw final,
  (forall p, own_file name base p -> (forall digits, p <> lit "/chunk_" ++ digits ++ lit ".txt") -> can_write p = true) ->
  ~ In "/"%char base -> (forall digits, let p := lit "/chunk_" ++ digits ++ lit ".txt" in can_write p = false /\ fs p = None) ->
  fs (dataset_file name) = None -> fs (base ++ lit ".csv") = Some content ->
  let gs := sort (map group_of column_groups) in
  encode (updated_groups gs) [] = Ok raw -> scale raw = Ok final ->
  snd (CreateDataset_Model.execute (fun _ => true) pick sort in_range chunk_size convert_txt convert_tsv encode scale fs name (csv_file base) has_header column_groups) = Succeeded ->
  let e := execute fs name (csv_file base) has_header column_groups in
  snd e = Succeeded /\ run (fst e) fs (dataset_file name) = Some final.
Proof.
  intros fs name base hh cgs content rw f W Hn Hc E0 Ec gs Ee Ef S0. rewrite <- final_dataset_file in *.
  assert (N0 : forall b t, t <> [] -> last t NL <> "t"%char -> forall digits, b ++ t <> lit "/chunk_" ++ digits ++ lit ".txt").
  { intros b t Ht Hl digits. rewrite (List.app_assoc (lit "/chunk_")). apply path_neq; [exact Ht|discriminate|]. intro X. apply Hl. rewrite X. reflexivity. }
  destruct (execute_csv can_write pick sort in_range chunk_size convert_txt convert_tsv encode scale fs name _ hh cgs base eq_refl) as [[_ N]|(E & [[H H']|(content' & Hc' & H)])].
  - contradiction.
  - rewrite H' in S0 by auto. discriminate.
  - rewrite Ec in Hc'. injection Hc' as <-. rewrite H in * by auto. fold gs in S0.
    destruct (build_made (fun _ => true) pick in_range chunk_size encode scale fs name base hh gs content (fun _ _ => eq_refl) Ec) as (G1 & _). rewrite G1 in S0. clear G1.
    assert (Pp : parent_path (base ++ lit ".given-expected.csv") = []).
    { unfold parent_path. rewrite split_last_none; [reflexivity|]. rewrite in_app_iff. cbn. intuition discriminate. }
    destruct (build_no_chunks can_write pick sort in_range chunk_size convert_txt convert_tsv encode scale fs name base hh gs content) as (G1 & G2).
    + apply W; [apply own_organized|apply N0; [discriminate|cbn; discriminate]].
    + apply W; [apply own_sorted|apply N0; [discriminate|cbn; discriminate]].
    + apply W; [apply own_raw|apply N0; [discriminate|cbn; discriminate]].
    + apply W; [apply own_final|apply N0; [discriminate|cbn; discriminate]].
    + exact Ec.
    + intro i. unfold chunk_path. rewrite Pp. exact (Hc (to_string i)).
    + fold gs. cbv zeta. unfold made in *. destruct (prepare _ _ _ _) as [[|r rs]| | ] eqn:Ep; try discriminate.
      rewrite Ee, Ef in *. cbn [fst snd] in *. auto.
Qed.
End Properties.
Print Assumptions create_dataset_keeps_files_partial.
Print Assumptions create_dataset_keeps_source.
Print Assumptions neighbours_lost_refuted.
Print Assumptions text_source_refuted.
Print Assumptions text_source_destroys_refuted.
Print Assumptions created_dataset_is_there_partial.
Print Assumptions create_after_crash_partial.
Print Assumptions interrupted_dataset_refuted.
Print Assumptions dataset_of_records_partial.
Print Assumptions folderless_source_refuted.

(** A file of three records, two of them equal; the chunk file of the user beside it is lost. *)
Definition ex_files : str -> option str := fun p =>
  if seq_eqb p (lit "d/x.csv") then Some (lit "1,a" ++ [NL] ++ lit "2,b" ++ [NL] ++ lit "1,a" ++ [NL])
  else if seq_eqb p (lit "d/chunk_0.txt") then Some (lit "mine") else None.
Definition ex_groups : list column_group :=
  [{| data_type := lit "number"; use := lit "given"; start := 0; count := 1; id := 1 |};
   {| data_type := lit "label"; use := lit "expected"; start := 1; count := 1; id := 2 |}].
Example create_ex :
  let e := execute (fun _ => true) pick_min (fun gs => gs) (fun _ => true) 2 (fun t => t) (fun t => t) (fun _ t => Ok t) (fun t => Ok t)
             ex_files (lit "n") (lit "file://d/x.csv") false ex_groups in
  let fs' := run (fun _ => true) (fst e) ex_files in
  snd e = Succeeded /\ fs' (dataset_file (lit "n")) = Some (lit "1," ++ [DQ] ++ lit "a" ++ [DQ; NL] ++ lit "2," ++ [DQ] ++ lit "b" ++ [DQ; NL]) /\
  fs' (lit "d/chunk_0.txt") = None /\ fs' (lit "d/x.csv") = ex_files (lit "d/x.csv").
Proof. vm_compute. auto. Qed.
