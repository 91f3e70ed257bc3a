(** Lemmas about the statement that creates a dataset. *)
From Coq Require Import List Arith NArith Bool String Ascii DecimalString DecimalNat DecimalFacts Lia.
From Verif Require Import Outcome Chars Lines_Model Lines_Proofs Delimited_Model Delimited_Spec Delimited_Proofs FileSort_Model FileSort_Spec FileSort_Proofs Columns_Model CreateDataset_Model CreateDataset_Spec.
Import ListNotations.
Local Open Scope nat_scope.
Local Open Scope list_scope.

(** * Texts *)
Lemma last_app_lit (a b : str) d : b <> [] -> last (a ++ b) d = last b d.
Proof.
  intro H. induction a as [|x a IH]; [reflexivity|]. cbn [app last]. destruct (a ++ b) eqn:E; [|exact IH].
  apply app_eq_nil in E as [_ ->]. contradiction.
Qed.
Lemma lit_inj a b : lit a = lit b -> a = b.
Proof. unfold lit. intro E. now rewrite <- (string_of_list_ascii_of_string a), E, string_of_list_ascii_of_string. Qed.
Lemma to_uint_nonnil n : Nat.to_uint n <> Decimal.Nil.
Proof.
  rewrite <- (DecimalNat.Unsigned.of_to n), DecimalNat.Unsigned.to_of. unfold Decimal.unorm.
  destruct (Decimal.nzhead (Nat.to_uint n)); discriminate.
Qed.
Lemma to_string_inj m n : to_string m = to_string n -> m = n.
Proof.
  unfold to_string. intro E. apply lit_inj in E. apply (f_equal NilZero.uint_of_string) in E.
  rewrite !NilZero.usu in E by apply to_uint_nonnil. injection E as E. now apply DecimalNat.Unsigned.to_uint_inj.
Qed.
Lemma chunk_path_inj d i j : chunk_path d i = chunk_path d j -> i = j.
Proof. unfold chunk_path. intro E. apply app_inv_head, app_inv_head, app_inv_tail in E. now apply to_string_inj. Qed.

Lemma digits_nil_empty u : Forall (fun c => 48 <= N_of_ascii c <= 57)%N (lit (NilEmpty.string_of_uint u)).
Proof. induction u; cbn; constructor; auto; cbn; lia. Qed.
Lemma digits_to_string n : Forall (fun c => 48 <= N_of_ascii c <= 57)%N (to_string n).
Proof.
  unfold to_string, NilZero.string_of_uint. destruct (Nat.to_uint n) eqn:E; rewrite <- ?E; try apply digits_nil_empty.
  now apply to_uint_nonnil in E.
Qed.

Lemma split_last_spec c s : match split_last c s with
  | Some (a, b) => s = a ++ c :: b /\ ~ In c b
  | None => ~ In c s end.
Proof.
  induction s as [|x t IH]; cbn; [auto|]. destruct (split_last c t) as [[a b]|].
  - destruct IH as [-> H]. auto.
  - destruct (ceq_spec x c) as [->|N]; cbn; [auto|]. intros [E|E]; auto.
Qed.
Lemma split_last_at a c b : ~ In c b -> split_last c (a ++ c :: b) = Some (a, b).
Proof.
  intro H. assert (T : split_last c b = None).
  { pose proof (split_last_spec c b) as S0. destruct (split_last c b) as [[a' b']|]; [|reflexivity]. destruct S0 as [-> _]. exfalso. apply H, in_elt. }
  induction a as [|x a IH]; cbn; [rewrite T; now rewrite ceq_refl|]. now rewrite IH.
Qed.
Lemma split_last_none c b : ~ In c b -> split_last c b = None.
Proof.
  intro H. pose proof (split_last_spec c b) as S0. destruct (split_last c b) as [[a' b']|]; [|reflexivity]. destruct S0 as [-> _]. exfalso. apply H, in_elt.
Qed.
Lemma parent_folder base s : ~ In "/"%char s -> folder_of base (parent_path (base ++ s)).
Proof.
  intro Hs. unfold parent_path. pose proof (split_last_spec "/" base) as B. destruct (split_last "/" base) as [[a b]|] eqn:E.
  - destruct B as [-> Hb]. rewrite <- List.app_assoc. cbn [app]. rewrite split_last_at by (rewrite in_app_iff; tauto). exists b. auto.
  - rewrite split_last_none by (rewrite in_app_iff; tauto). exists base. auto.
Qed.

(** * Running operations *)
Lemma seq_eqb_refl' s : seq_eqb s s = true.
Proof. destruct (seq_eqb_spec s s); congruence. Qed.
Lemma put_same fs p e : put fs p e p = e.
Proof. unfold put. now rewrite seq_eqb_refl'. Qed.
Lemma put_other fs p q e : p <> q -> put fs p e q = fs q.
Proof. unfold put. intro H. now destruct (seq_eqb_spec p q). Qed.

Definition path_of (o : op) : str := match o with Truncate p | Append p _ | Remove p => p end.

Section Run.
Context (can_write : str -> bool).
Notation step := (step can_write).
Notation run := (run can_write).

Lemma step_frame fs o p : path_of o <> p -> step fs o p = fs p.
Proof.
  destruct o as [q|q c|q]; cbn; intro H; [destruct (can_write q)| |]; try now rewrite ?put_other.
  destruct (can_write q); [|reflexivity]. destruct (fs q); [now apply put_other|reflexivity].
Qed.
Lemma run_frame ops fs p : Forall (fun o => path_of o <> p) ops -> run ops fs p = fs p.
Proof.
  intro H. revert fs. induction H as [|o ops Ho _ IH]; intro fs; [reflexivity|].
  unfold CreateDataset_Model.run in *. cbn [fold_left]. now rewrite IH, step_frame.
Qed.
Lemma run_app a b fs : run (a ++ b) fs = run b (run a fs).
Proof. apply fold_left_app. Qed.
Lemma run_one o fs : run [o] fs = step fs o.
Proof. reflexivity. Qed.
Lemma run_appends p content fs old : can_write p = true -> fs p = Some old -> run (map (Append p) content) fs p = Some (old ++ content).
Proof.
  intros W. revert fs old. induction content as [|c content IH]; intros fs old E; [now rewrite List.app_nil_r|].
  cbn [map]. change (Append p c :: map (Append p) content) with ([Append p c] ++ map (Append p) content). rewrite run_app, run_one. rewrite (IH _ (old ++ [c])).
  - now rewrite <- List.app_assoc.
  - cbn. rewrite W, E. apply put_same.
Qed.
Lemma run_write p content fs : can_write p = true -> run (write_file p content) fs p = Some content.
Proof.
  intro W. unfold write_file. change (Truncate p :: map (Append p) content) with ([Truncate p] ++ map (Append p) content). rewrite run_app, run_one.
  rewrite (run_appends _ _ _ []); [reflexivity|exact W|]. cbn. rewrite W. apply put_same.
Qed.
Lemma write_paths p content : Forall (fun o => path_of o = p) (write_file p content).
Proof. constructor; [reflexivity|]. apply Forall_map, Forall_forall. reflexivity. Qed.
Lemma write_frame p q content fs : p <> q -> run (write_file p content) fs q = fs q.
Proof. intro H. apply run_frame. eapply Forall_impl; [|apply write_paths]. cbn. intros o ->. exact H. Qed.
Lemma write_first p content fs : can_write p = true -> run (firstn 1 (write_file p content)) fs p = Some [].
Proof. intro W. cbn. rewrite W. apply put_same. Qed.
End Run.

(** * The files of the statement *)
Notation organized base := (base ++ lit ".given-expected.csv").
Notation sorted base := (base ++ lit ".sorted.csv").
Notation csv base := (base ++ lit ".csv").
Notation raw name := (get_dataset_path name ++ lit "/raw.bin").
Notation final name := (get_dataset_path name ++ lit "/dataset.bin").
Notation chunk base i := (chunk_path (parent_path (organized base)) i).

Lemma path_neq a b s t : s <> [] -> t <> [] -> last s NL <> last t NL -> (a : str) ++ s <> b ++ t.
Proof. intros Hs Ht N E. apply N. rewrite <- (last_app_lit a s NL Hs), E. now apply last_app_lit. Qed.
Lemma base_neq (a s t : str) : s <> t -> a ++ s <> a ++ t.
Proof. intros H E. now apply app_inv_head in E. Qed.
Lemma chunk_tail d i : exists e, chunk_path d i = e ++ lit ".txt".
Proof. exists (d ++ lit "/chunk_" ++ to_string i). unfold chunk_path. now rewrite <- !app_assoc. Qed.
Lemma chunk_neq d i b t : t <> [] -> last t NL <> "t"%char -> chunk_path d i <> b ++ t.
Proof. intros H N. destruct (chunk_tail d i) as [e ->]. apply path_neq; [discriminate|exact H|]. intro E. apply N. rewrite <- E. reflexivity. Qed.

Ltac differ :=
  solve [ assumption | apply base_neq; discriminate | apply not_eq_sym; apply base_neq; discriminate
        | apply path_neq; [discriminate|discriminate|cbn; discriminate]
        | apply chunk_neq; [discriminate|cbn; discriminate]
        | apply not_eq_sym; apply chunk_neq; [discriminate|cbn; discriminate] ].

Lemma final_dataset_file name : final name = dataset_file name.
Proof. unfold get_dataset_path, dataset_file. now rewrite <- List.app_assoc. Qed.

Lemma own_organized name base : own_file name base (organized base). Proof. left; reflexivity. Qed.
Lemma own_sorted name base : own_file name base (sorted base). Proof. right; left; reflexivity. Qed.
Lemma own_raw name base : own_file name base (raw name).
Proof. right; right; left. unfold get_dataset_path. now rewrite <- List.app_assoc. Qed.
Lemma own_final name base : own_file name base (final name).
Proof. right; right; right; left. unfold get_dataset_path. now rewrite <- List.app_assoc. Qed.
Lemma own_chunk name base i : own_file name base (chunk base i).
Proof.
  do 4 right. exists (parent_path (organized base)), (to_string i). split; [|split].
  - apply parent_folder. cbn. intuition discriminate.
  - apply digits_to_string.
  - reflexivity.
Qed.

(** The source is none of the own files. *)
Lemma csv_not_own name base : ~ own_file name base (csv base).
Proof.
  intros [E|[E|[E|[E|(d & ds & _ & _ & E)]]]].
  - apply app_inv_head in E. discriminate.
  - apply app_inv_head in E. discriminate.
  - rewrite app_assoc in E. revert E. differ.
  - rewrite app_assoc in E. revert E. differ.
  - rewrite !app_assoc in E. revert E. differ.
Qed.

(** * Sorting through files *)
Section Sorting.
Context (can_write : str -> bool) (pick : heap -> option ((str * list str) * heap)) (chunk_size : nat).
Hypothesis Hpick : min_queue pick.
Notation run := (run can_write).

Lemma chunk_writes_paths d is cs : Forall (fun o => exists i, In i is /\ path_of o = chunk_path d i)
  (flat_map (fun '(i, c) => write_file (chunk_path d i) (write_lines c)) (combine is cs)).
Proof.
  apply Forall_forall. intros o Ho. apply in_flat_map in Ho as ([i c] & Hi & Ho). exists i. split; [now apply in_combine_l in Hi|].
  pose proof (write_paths (chunk_path d i) (write_lines c)) as F. rewrite Forall_forall in F. now apply F.
Qed.
Lemma chunk_writes_run d cs : forall k fs, (forall i, can_write (chunk_path d i) = true) ->
  forall j c, nth_error cs j = Some c ->
  run (flat_map (fun '(i, c) => write_file (chunk_path d i) (write_lines c)) (combine (seq k (List.length cs)) cs)) fs (chunk_path d (k + j)) = Some (write_lines c).
Proof.
  induction cs as [|c0 cs IH]; intros k fs W j c Hj; [destruct j; discriminate|].
  cbn [List.length seq combine flat_map]. rewrite run_app. destruct j as [|j]; cbn in Hj.
  - injection Hj as ->. rewrite run_frame.
    + rewrite Nat.add_0_r. now apply run_write.
    + eapply Forall_impl; [|apply chunk_writes_paths]. cbn. intros o (i & Hi & ->) E. apply chunk_path_inj in E. apply in_seq in Hi. lia.
  - replace (k + S j) with (S k + j) by lia. now apply IH.
Qed.

Lemma chunks_no_nl content : Forall (Forall (fun l => ~ In NL l)) (make_chunks chunk_size [] (lines_of content)).
Proof.
  apply Forall_forall. intros c Hc. apply Forall_forall. intros l Hl.
  assert (I : In l (List.concat (make_chunks chunk_size [] (lines_of content)))) by (apply in_concat; eauto).
  apply (Permutation.Permutation_in _ (make_chunks_perm _ _ _)) in I. cbn in I. apply filter_In in I as [I _].
  pose proof (lines_of_no_nl content) as F. rewrite Forall_forall in F. now apply F.
Qed.

Lemma open_chunks_opens o1 o2 cs : forall k, (forall j, k <= j < k + List.length cs -> o1 j = o2 j) -> open_chunks o1 k cs = open_chunks o2 k cs.
Proof.
  induction cs as [|c cs IH]; intros k H; [reflexivity|]. cbn [open_chunks List.length] in *. rewrite <- (H k) by lia.
  destruct (o1 k); [|reflexivity]. destruct c; [apply IH|f_equal; apply IH]; intros j Hj; apply H; lia.
Qed.

(** If every chunk can be written, the result is that of the sorter. *)
Lemma sort_files_spec fs base content : (forall i, can_write (chunk base i) = true) -> can_write (sorted base) = true -> fs (organized base) = Some content ->
  exists ops, sort_files can_write pick chunk_size fs (organized base) (sorted base) = Some ops /\
    run ops fs (sorted base) = Some (snd (sort_file pick (fun _ => true) content false chunk_size true)) /\
    run ops fs (organized base) = Some content /\
    (lines_of content <> [] -> (exists l, In l (lines_of content) /\ l <> []) -> run ops fs (chunk base 0) = None).
Proof.
  intros W Ws E. unfold sort_files. rewrite E. cbv zeta. set (d := parent_path (organized base)) in *.
  set (cs := make_chunks chunk_size [] (lines_of content)).
  set (writes := flat_map _ _). eexists; split; [reflexivity|].
  assert (R : forall j c, nth_error cs j = Some c -> run writes fs (chunk_path d j) = Some (write_lines c)).
  { intros j c Hj. exact (chunk_writes_run d cs 0 fs W j c Hj). }
  match goal with |- context [open_chunks ?o 0 ?r] => set (opens := o); set (read := r) end.
  assert (Er : read = cs).
  { unfold read. clear opens read. pose proof (chunks_no_nl content) as F. fold cs in F.
    assert (G : forall cs' k, Forall (Forall (fun l => ~ In NL l)) cs' -> (forall j c, nth_error cs' j = Some c -> run writes fs (chunk_path d (k + j)) = Some (write_lines c)) ->
      map (fun i => match run writes fs (chunk_path d i) with Some content => lines_of content | None => [] end) (seq k (List.length cs')) = cs').
    { clear. intros cs'. induction cs' as [|c cs' IH]; intros k F R; [reflexivity|]. inversion F; subst. cbn [List.length seq map].
      f_equal.
      - specialize (R 0 c eq_refl). rewrite Nat.add_0_r in R. rewrite R. now apply lines_of_write.
      - apply IH; [assumption|]. intros j c' Hj. replace (S k + j) with (k + S j) by lia. now apply R. }
    apply G; [exact F|]. exact R. }
  assert (Eo : open_chunks opens 0 read = open_chunks (fun _ => true) 0 cs).
  { rewrite Er. apply open_chunks_opens. intros j Hj. unfold opens, present. destruct (nth_error cs j) as [c|] eqn:En; [|apply nth_error_None in En; lia].
    now rewrite (R j c En). }
  rewrite Eo. clear Er Eo. clearbody opens read.
  set (is := seq 0 (List.length cs)).
  assert (Rm : forall fs p, (forall i, chunk_path d i <> p) -> run (map (fun i => Remove (chunk_path d i)) is) fs p = fs p).
  { intros f p Hp. apply run_frame. apply Forall_map, Forall_forall. intros i _. apply Hp. }
  rewrite !run_app. split; [|split].
  - rewrite Rm by (intro; differ). rewrite run_write by exact Ws. reflexivity.
  - rewrite Rm by (intro; differ). rewrite write_frame by differ. rewrite run_frame; [exact E|].
    eapply Forall_impl; [|apply chunk_writes_paths]. cbn. intros o (i & _ & ->). differ.
  - intros _ (l & Hl & Hn).
    assert (In 0 is).
    { unfold is. apply in_seq. destruct cs eqn:Ec; [|cbn; lia]. exfalso.
      assert (I : In l (List.concat cs)). { unfold cs. apply (Permutation.Permutation_in _ (Permutation.Permutation_sym (make_chunks_perm _ _ _))). cbn. apply filter_In. split; [exact Hl|]. now destruct l. }
      rewrite Ec in I. destruct I. }
    apply in_split in H as (a & b & ->). rewrite map_app. cbn [map]. rewrite run_app. change (Remove (chunk_path d 0) :: ?t) with ([Remove (chunk_path d 0)] ++ t).
    rewrite run_app. assert (Z : forall f t, f (chunk_path d 0) = None -> run (map (fun i => Remove (chunk_path d i)) t) f (chunk_path d 0) = None).
    { intros f t. revert f. induction t as [|x t IH]; intros f Hf; [exact Hf|]. cbn [map]. change (Remove (chunk_path d x) :: ?t) with ([Remove (chunk_path d x)] ++ t).
      rewrite run_app. apply IH. cbn. unfold put. destruct (seq_eqb_spec (chunk_path d x) (chunk_path d 0)); [reflexivity|exact Hf]. }
    apply Z. cbn. apply put_same.
Qed.
End Sorting.

(** * The statement *)
Lemma Some_inj (A : Type) (a b : A) : Some a = Some b -> a = b.
Proof. congruence. Qed.
Section Statement.
Context (can_write : str -> bool) (pick : heap -> option ((str * list str) * heap)) (sort : list group -> list group) (in_range : str -> bool).
Context (chunk_size : nat) (convert_txt convert_tsv : str -> str) (encode : list group -> str -> outcome str) (scale : str -> outcome str).
Notation run := (run can_write).
Notation build := (build can_write pick in_range chunk_size encode scale).
Notation execute := (execute can_write pick sort in_range chunk_size convert_txt convert_tsv encode scale).

Lemma write_own name base p content : own_file name base p -> Forall (fun o => own_file name base (path_of o)) (write_file p content).
Proof. intro H. eapply Forall_impl; [|apply write_paths]. cbn. now intros o ->. Qed.
Lemma sort_files_own fs name base ops : sort_files can_write pick chunk_size fs (organized base) (sorted base) = Some ops ->
  Forall (fun o => own_file name base (path_of o)) ops.
Proof.
  unfold sort_files. destruct (fs (organized base)); [|discriminate]. cbv zeta. intro E. apply Some_inj in E. rewrite <- E. clear E.
  apply Forall_app. split; [|apply Forall_app; split].
  - eapply Forall_impl; [|apply chunk_writes_paths]. cbn. intros o (i & _ & ->). apply own_chunk.
  - apply write_own, own_sorted.
  - apply Forall_map, Forall_forall. intros i _. apply own_chunk.
Qed.

Lemma build_own fs name base hh gs : Forall (fun o => own_file name base (path_of o)) (fst (build fs name base hh gs)).
Proof.
  unfold CreateDataset_Model.build. cbv zeta.
  destruct (prepare _ _ _ _) as [records| | ]; [|constructor; [apply own_organized|constructor]|constructor].
  unfold after. cbn [fst]. apply Forall_app. split; [apply write_own, own_organized|].
  destruct records as [|r records]; [constructor|].
  destruct (sort_files _ _ _ _ _ _) as [ops|] eqn:Es; [|constructor]. cbn [fst].
  apply Forall_app. split; [now apply (sort_files_own _ name) in Es|].
  destruct (negb _); [constructor|]. cbn [fst]. apply Forall_app. split; [constructor; [apply own_organized|constructor]|].
  destruct (encode _ _) as [rw| | ]; [|constructor..]. cbn [fst]. apply Forall_app. split; [apply write_own, own_raw|].
  destruct (negb _); [constructor|]. cbn [fst]. apply Forall_app. split; [constructor; [apply own_sorted|constructor]|].
  destruct (scale _) as [f| | ]; [|constructor..]. cbn [fst]. apply Forall_app. split; [apply write_own, own_final|].
  destruct (negb _); cbn [fst]; [constructor|constructor; [apply own_raw|constructor]].
Qed.

(** What the statement makes of a csv file, when the records become [sorted_text] by sorting. *)
Definition made (sorted_text : list (list str) -> str) (gs : list group) (hh : bool) (content : str) : result * option str :=
  match prepare (given_groups gs) (expected_groups gs) content hh with
  | Throw => (Thrown, None)
  | UB => (Undefined, None)
  | Ok [] => (Failed, None)
  | Ok records =>
      match encode (updated_groups gs) (sorted_text records) with
      | Throw => (Thrown, None)
      | UB => (Undefined, None)
      | Ok rw => match scale rw with Throw => (Thrown, None) | UB => (Undefined, None) | Ok f => (Succeeded, Some f) end
      end
  end.
(** The text if all files can be written. *)
Definition good_text (records : list (list str)) : str := snd (sort_file pick (fun _ => true) (write_records in_range "," records) false chunk_size true).

Lemma own_writable name base : (forall p, own_file name base p -> can_write p = true) ->
  can_write (organized base) = true /\ can_write (sorted base) = true /\ can_write (raw name) = true /\ can_write (final name) = true /\ forall i, can_write (chunk base i) = true.
Proof.
  intro H. split; [apply H, own_organized|]. split; [apply H, own_sorted|]. split; [apply H, own_raw|]. split; [apply H, own_final|].
  intro i. apply H, own_chunk.
Qed.
Lemma final_not_chunk name base i : chunk base i <> final name. Proof. differ. Qed.

Lemma sort_files_frame fs base ops p : sort_files can_write pick chunk_size fs (organized base) (sorted base) = Some ops ->
  sorted base <> p -> (forall i, chunk base i <> p) -> run ops fs p = fs p.
Proof.
  unfold sort_files. destruct (fs (organized base)); [|discriminate]. cbv zeta. intros E Hs Hc. apply Some_inj in E. rewrite <- E. clear E.
  apply run_frame. apply Forall_app. split; [|apply Forall_app; split].
  - eapply Forall_impl; [|apply chunk_writes_paths]. cbn. intros o (i & _ & ->). apply Hc.
  - eapply Forall_impl; [|apply write_paths]. cbn. now intros o ->.
  - apply Forall_map, Forall_forall. intros i _. apply Hc.
Qed.

Lemma run_remove_same p fs : run [Remove p] fs p = None.
Proof. cbn. apply put_same. Qed.
Lemma run_remove_other p q fs : p <> q -> run [Remove p] fs q = fs q.
Proof. intro H. cbn. now apply put_other. Qed.

Lemma build_made_gen fs name base hh gs content sorted_text :
  can_write (organized base) = true -> can_write (sorted base) = true -> can_write (raw name) = true -> can_write (final name) = true ->
  fs (csv base) = Some content ->
  (forall r rs, let text := write_records in_range "," (r :: rs) in let fs1 := run (write_file (organized base) text) fs in
     exists ops, sort_files can_write pick chunk_size fs1 (organized base) (sorted base) = Some ops /\
       run ops fs1 (sorted base) = Some (sorted_text (r :: rs)) /\ run ops fs1 (organized base) = Some text) ->
  let b := build fs name base hh gs in
  snd b = fst (made sorted_text gs hh content) /\
  run (fst b) fs (final name) = match snd (made sorted_text gs hh content) with Some f => Some f | None => fs (final name) end /\
  (snd b = Succeeded -> run (fst b) fs (sorted base) = None /\ run (fst b) fs (organized base) = None /\
     exists ops f, fst b = ops ++ write_file (final name) f ++ [Remove (raw name)] /\ snd (made sorted_text gs hh content) = Some f /\ run ops fs (final name) = fs (final name)).
Proof.
  intros Wo Ws Wr Wf E HS. cbv zeta. unfold CreateDataset_Model.build, made. cbv zeta. rewrite E.
  destruct (prepare _ _ _ _) as [records| | ]; [|split; [reflexivity|split; [apply run_frame; constructor; [cbn [path_of]; differ|constructor]|discriminate]]|split; [reflexivity|split; [reflexivity|discriminate]]].
  unfold after. destruct records as [|r records].
  { cbn [fst snd]. split; [reflexivity|]. split; [|discriminate]. rewrite List.app_nil_r. apply write_frame. differ. }
  destruct (HS r records) as (ops & Es & Rs & Ro). set (text := write_records in_range "," (r :: records)) in *.
  rewrite Es. cbn [fst snd].
  unfold present. rewrite Ro. cbn [negb fst snd]. rewrite (run_remove_other (organized base)) by differ. rewrite Rs.
  assert (Ff : run ops (run (write_file (organized base) text) fs) (final name) = fs (final name)).
  { rewrite (sort_files_frame _ _ _ _ Es) by (intros; differ). apply write_frame. differ. }
  destruct (encode _ _) as [rw| | ]; cbn [fst snd].
  2,3: split; [reflexivity|]; split; [|discriminate]; rewrite List.app_nil_r, !run_app, run_remove_other by differ; exact Ff.
  rewrite (write_frame can_write (raw name) (sorted base)) by differ. rewrite (run_remove_other (organized base) (sorted base)) by differ. rewrite Rs. cbn [negb fst snd].
  rewrite (run_remove_other (sorted base) (raw name)) by differ. rewrite run_write by exact Wr.
  destruct (scale rw) as [f| | ]; cbn [fst snd].
  2,3: split; [reflexivity|]; split; [|discriminate]; rewrite List.app_nil_r, !run_app, run_remove_other, write_frame, run_remove_other by differ; exact Ff.
  rewrite (write_frame can_write (final name) (raw name)) by differ. rewrite (run_remove_other (sorted base) (raw name)) by differ. rewrite run_write by exact Wr. cbn [negb fst snd].
  split; [reflexivity|]. split; [rewrite !run_app; rewrite run_remove_other by differ; now apply run_write|]. intros _. split; [|split].
  - rewrite !run_app. rewrite run_remove_other by differ. rewrite write_frame by differ. apply run_remove_same.
  - rewrite !run_app. rewrite run_remove_other by differ. rewrite write_frame by differ. rewrite (run_remove_other (sorted base)) by differ. rewrite write_frame by differ. apply run_remove_same.
  - exists (write_file (organized base) text ++ ops ++ [Remove (organized base)] ++ write_file (raw name) rw ++ [Remove (sorted base)]), f.
    split; [rewrite <- !List.app_assoc; reflexivity|]. split; [reflexivity|]. rewrite !run_app. rewrite run_remove_other by differ. rewrite write_frame by differ. rewrite run_remove_other by differ. exact Ff.
Qed.

Lemma build_made fs name base hh gs content : (forall p, own_file name base p -> can_write p = true) ->
  fs (csv base) = Some content ->
  let b := build fs name base hh gs in
  snd b = fst (made good_text gs hh content) /\
  run (fst b) fs (final name) = match snd (made good_text gs hh content) with Some f => Some f | None => fs (final name) end /\
  (snd b = Succeeded -> run (fst b) fs (sorted base) = None /\ run (fst b) fs (organized base) = None /\
     exists ops f, fst b = ops ++ write_file (final name) f ++ [Remove (raw name)] /\ snd (made good_text gs hh content) = Some f /\ run ops fs (final name) = fs (final name)).
Proof.
  intros W E. destruct (own_writable _ _ W) as (Wo & Ws & Wr & Wf & Wc). apply build_made_gen; try assumption. intros r rs text fs1.
  assert (Eo : fs1 (organized base) = Some text) by now apply run_write.
  destruct (sort_files_spec can_write pick chunk_size _ base text Wc Ws Eo) as (ops & Es & Rs & Ro & _). eauto.
Qed.

(** Without chunk files nothing is left of the records. *)
Lemma build_no_chunks fs name base hh gs content : can_write (organized base) = true -> can_write (sorted base) = true -> can_write (raw name) = true -> can_write (final name) = true ->
  fs (csv base) = Some content -> (forall i, can_write (chunk base i) = false /\ fs (chunk base i) = None) ->
  let b := build fs name base hh gs in
  snd b = fst (made (fun _ => []) gs hh content) /\
  run (fst b) fs (final name) = match snd (made (fun _ => []) gs hh content) with Some f => Some f | None => fs (final name) end.
Proof.
  intros Wo Ws Wr Wf E C. assert (G : forall A B C : Prop, A /\ B /\ C -> A /\ B) by tauto. cbv zeta. eapply G. apply build_made_gen; try assumption.
  intros r rs text fs1. unfold sort_files. assert (Eo : fs1 (organized base) = Some text) by now apply run_write. rewrite Eo. cbv zeta.
  set (cs := make_chunks chunk_size [] (lines_of text)).
  assert (K : forall ops, Forall (fun o => exists i, path_of o = chunk base i /\ (forall p, o <> Remove p)) ops -> run ops fs1 = fs1).
  { intros ops H. induction H as [|o ops (i & Hp & Hr) _ IH]; [reflexivity|]. change (o :: ops) with ([o] ++ ops). rewrite run_app, run_one.
    replace (step can_write fs1 o) with fs1; [exact IH|]. destruct o as [p|p c|p]; cbn in *; [| |now destruct (Hr p)]; now rewrite Hp, (proj1 (C i)). }
  match goal with |- context [run ?w fs1] => assert (Ew : run w fs1 = fs1) end.
  { apply K. apply Forall_forall. intros o Ho. apply in_flat_map in Ho as ([i c] & _ & [<-|Ho]); [exists i; split; [reflexivity|discriminate]|].
    apply in_map_iff in Ho as (x & <- & _). exists i. split; [reflexivity|discriminate]. }
  rewrite Ew.
  match goal with |- context [open_chunks ?o 0 ?l] => assert (Eh : open_chunks o 0 l = []) end.
  { destruct cs as [|c cs']; [reflexivity|]. cbn [List.length seq map open_chunks]. unfold present, fs1. rewrite write_frame by differ. now rewrite (proj2 (C 0)). }
  rewrite Eh. cbn [heap_size map List.concat List.length merge_loop write_lines flat_map].
  eexists. split; [reflexivity|]. rewrite !run_app, Ew.
  assert (Rm : forall fs p, (forall i, chunk base i <> p) -> run (map (fun i => Remove (chunk base i)) (seq 0 (List.length cs))) fs p = fs p).
  { intros f p Hp. apply run_frame. apply Forall_map, Forall_forall. intros i _. apply Hp. }
  split; rewrite Rm by (intro; differ).
  - now apply run_write.
  - rewrite write_frame by differ. exact Eo.
Qed.

(** ** The statement for a csv file *)
Lemma execute_csv fs name location hh cgs base : location = lit "file://" ++ base ++ lit ".csv" ->
  execute fs name location hh cgs = ([], Succeeded) /\ fs (final name) <> None \/
  fs (final name) = None /\ (execute fs name location hh cgs = ([], Failed) /\ (forall cw (fs' : files), fs' (final name) = None -> fs' (csv base) = fs (csv base) -> CreateDataset_Model.execute cw pick sort in_range chunk_size convert_txt convert_tsv encode scale fs' name location hh cgs = ([], Failed)) \/
   exists content, fs (csv base) = Some content /\
     forall cw (fs' : files), fs' (final name) = None -> fs' (csv base) = fs (csv base) -> CreateDataset_Model.execute cw pick sort in_range chunk_size convert_txt convert_tsv encode scale fs' name location hh cgs = CreateDataset_Model.build cw pick in_range chunk_size encode scale fs' name base hh (sort (map group_of cgs))).
Proof.
  intros ->. unfold CreateDataset_Model.execute.
  change (firstn 7 (lit "file://" ++ csv base)) with (lit "file://"). change (skipn 7 (lit "file://" ++ csv base)) with (csv base). rewrite seq_eqb_refl'.
  assert (Sp : split_last "." (csv base) = Some (base, lit "csv")) by (apply (split_last_at base "."%char (lit "csv")); cbn; intuition discriminate).
  rewrite Sp. unfold dataset_exists, present. destruct (fs (final name)) eqn:E; [left; split; [reflexivity|congruence]|]. right. split; [reflexivity|].
  cbn [negb]. destruct cgs as [|cg cgs]; [left; split; [reflexivity|intros cw fs' -> _; reflexivity]|].
  destruct (negb (forallb acceptable (cg :: cgs))); [left; split; [reflexivity|intros cw fs' -> _; reflexivity]|].
  unfold sort_and_check_overlaps. set (gs := sort (map group_of (cg :: cgs))). destruct (has_overlap gs); [left; split; [reflexivity|intros cw fs' -> _; reflexivity]|].
  change (seq_eqb (lit "csv") (lit "txt")) with false. change (seq_eqb (lit "csv") (lit "tsv")) with false. change (seq_eqb (lit "csv") (lit "csv")) with true. cbv iota beta zeta.
  cbn [negb].
  assert (A : forall (r : list op * result), after [] r = r) by (intros [? ?]; reflexivity).
  destruct (fs (csv base)) as [content|] eqn:Ec.
  2: { left. split; [rewrite A; change (CreateDataset_Model.run can_write [] fs) with fs; now rewrite Ec|]. intros cw fs' -> E'. rewrite A. change (CreateDataset_Model.run cw [] fs') with fs'. now rewrite E'. }
  destruct (given_groups gs) as [|g0 gg] eqn:Eg.
  { left. split; [rewrite A; change (CreateDataset_Model.run can_write [] fs) with fs; now rewrite Ec|]. intros cw fs' -> E'. rewrite A. change (CreateDataset_Model.run cw [] fs') with fs'. now rewrite E'. }
  right. exists content. split; [reflexivity|]. intros cw fs' -> E'. rewrite A. change (CreateDataset_Model.run cw [] fs') with fs'. rewrite E'. cbn [negb]. reflexivity.
Qed.
End Statement.

(** * The records *)
Section Records.
Context (pick : heap -> option ((str * list str) * heap)) (in_range : str -> bool) (chunk_size : nat).
Hypothesis Hpick : min_queue pick.

Lemma line_of_record_nonempty r : r <> [] -> r <> [[]] -> Forall (plain_field ","%char) r -> write_record in_range "," r <> [].
Proof.
  intros H1 H2 F. destruct r as [|f [|g r]]; [contradiction| |].
  - cbn [write_record]. inversion F; subst. destruct f as [|c f]; [contradiction|]. unfold write_field. rewrite strip_trimmed by apply H3.
    destruct (_ && _); [discriminate|]. destruct (negb _); discriminate.
  - cbn [write_record]. destruct (write_field _ _ f); discriminate.
Qed.

Lemma map_surj (A B : Type) (f : A -> B) (l : list A) (ys : list B) : (forall y, In y ys -> In y (map f l)) -> exists xs, map f xs = ys /\ forall x, In x xs -> In x l.
Proof.
  induction ys as [|y ys IH]; intro H; [exists []; split; [reflexivity|intros x []]|].
  destruct IH as (xs & E & I); [intros; apply H; now right|]. destruct (proj1 (in_map_iff f l y) (H y (or_introl eq_refl))) as (x & Ex & Ix).
  exists (x :: xs). cbn. split; [congruence|]. intros z [<-|Hz]; auto.
Qed.

Lemma good_text_records records : Forall (fun r => r <> [] /\ r <> [[]] /\ Forall (plain_field ","%char) r) records ->
  exists R, NoDup R /\ (forall r, In r R <-> In r records) /\
    forall fuel, List.length R <= fuel -> read_records "," fuel (open_path [good_text pick in_range chunk_size records] false) = Ok R.
Proof.
  intro F. rewrite Forall_forall in F. unfold good_text. set (text := write_records in_range "," records).
  destruct (out_lines_spec pick Hpick (fun _ => true) text false chunk_size true (fun _ => eq_refl)) as (_ & _ & H2). destruct (H2 eq_refl) as [O I]. clear H2.
  cbv iota in I. set (out := out_lines pick (fun _ => true) text false chunk_size true) in *.
  assert (El : lines_of text = map (write_record in_range ",") records).
  { unfold text, write_records. apply lines_of_write. apply Forall_map, Forall_forall. intros r Hr. apply record_no_nl; [discriminate|apply (F r Hr)]. }
  rewrite El in I.
  destruct (map_surj _ _ (write_record in_range ",") records out) as (R & ER & IR); [intros y Hy; apply (I y), Hy|].
  assert (Et : snd (sort_file pick (fun _ => true) text false chunk_size true) = write_records in_range "," R).
  { unfold sort_file, write_records. cbn [snd]. rewrite ER. reflexivity. }
  assert (FR : Forall (fun r => r <> [] /\ Forall (plain_field ","%char) r) R).
  { apply Forall_forall. intros r Hr. destruct (F r (IR r Hr)) as (a & _ & b). auto. }
  assert (RT : forall fuel, List.length R <= fuel -> read_records "," fuel (open_path [write_records in_range "," R] false) = Ok R).
  { intros fuel Hf. apply round_trip; try discriminate; assumption. }
  assert (Inj : forall a b, In a records -> In b records -> write_record in_range "," a = write_record in_range "," b -> a = b).
  { intros a b Ha Hb Eab. destruct (F a Ha) as (a1 & _ & a2). destruct (F b Hb) as (b1 & _ & b2).
    assert (One : forall r, r <> [] -> Forall (plain_field ","%char) r -> read_records "," 1 (open_path [write_lines [write_record in_range "," r]] false) = Ok [r]).
    { intros r r1 r2. apply (round_trip in_range ","%char [r] 1); try discriminate; auto. }
    pose proof (One a a1 a2) as Ra. rewrite Eab, (One b b1 b2) in Ra. congruence. }
  exists R. split; [|split].
  - apply (NoDup_map_inv (write_record in_range ",")). rewrite ER. now apply ordered_lt_nodup.
  - intro r. split; [apply IR|]. intro Hr.
    assert (Ho : In (write_record in_range "," r) out).
    { apply I. split; [now apply in_map|]. destruct (F r Hr) as (a & b & c). now apply line_of_record_nonempty. }
    rewrite <- ER in Ho. apply in_map_iff in Ho as (r' & E' & Hr'). rewrite <- (Inj r' r (IR _ Hr') Hr E'). exact Hr'.
  - intros fuel Hf. rewrite Et. now apply RT.
Qed.
End Records.
