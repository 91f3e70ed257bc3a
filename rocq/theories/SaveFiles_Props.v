(** C56, C82: the files of a saved model, also when saving is interrupted. *)
From Coq Require Import List Arith Bool String Ascii Lia.
From Verif Require Import Outcome Chars SaveFiles_Model SaveFiles_Spec SaveFiles_Proofs.
Import ListNotations.

Lemma firstn_incl : forall X k (l : list X) x, In x (firstn k l) -> In x l.
Proof. intros X k l x H. rewrite <- (firstn_skipn k l). apply in_or_app. now left. Qed.

(** ** C56 *)
(** Saving with overwriting that is not interrupted leaves the new model in the folder, whatever was there, and
    nothing else. *)
Theorem save_replaces : forall ch fs folder m, folder <> [] -> consistent m ->
  (forall p, inside folder p -> fs p <> None -> is_directory fs folder = true) -> (is_directory fs folder = true -> removal fs folder (model_order ch)) ->
  let after := run (saveAs ch fs folder true m) fs in
  holds after folder m /\
  forall p, inside folder p -> after p <> None ->
    p = folder \/ p = folder ++ [lit "model.config"] \/ p = folder ++ [lit "default"] \/ exists label bytes, In (label, bytes) (layers m) /\ p = folder ++ [lit "default"; label ++ lit ".tensor"].
Proof. intros ch fs folder m Hf C Hn Hr after. split; [now apply overwrite_holds|now apply overwrite_nothing_else]. Qed.
(** Wherever it is interrupted, everything outside the folder is as before. *)
Theorem save_crash_partial : forall ch fs folder m, folder <> [] ->
  (forall p, inside folder p -> fs p <> None -> is_directory fs folder = true) -> (is_directory fs folder = true -> removal fs folder (model_order ch)) ->
  forall k p, ~ inside folder p -> fs p <> None -> killed k (saveAs ch fs folder true m) fs p = fs p.
Proof.
  intros ch fs folder m Hf Hn Hr k p Hp Hx. unfold killed. apply run_kept; [exact Hx|]. intros o Ho. apply firstn_incl in Ho. destruct (path_eq_dec (op_path o) p) as [E|E]; [right|now left]. subst p.
  rewrite (saveAs_overwrite ch fs folder m Hn Hr) in Ho. rewrite !in_app_iff in Ho. destruct Ho as [H|[[H|H]|[H|H]]].
  - destruct (is_directory fs folder); [|destruct H]. apply in_map_iff in H as (q & <- & Hq). destruct Hp. now apply (Hr eq_refl).
  - now apply create_path in H.
  - destruct Hp. rewrite (write_path _ _ _ H). apply inside_app.
  - now apply create_path in H.
  - destruct Hp. apply (writes_path (folder ++ [lit "default"])) in H as (label & _ & _ & ->). rewrite <- app_assoc. apply inside_app.
Qed.
(** But neither the old nor the new model survives every interruption: whatever model is saved over, there
    is a moment at which the folder and everything in it is gone. *)
Theorem save_crash_refuted : forall ch fs folder old m, is_directory fs folder = true -> removal fs folder (model_order ch) -> holds fs folder old ->
  exists k, let s := killed k (saveAs ch fs folder true m) fs in (forall p, inside folder p -> s p = None) /\ ~ holds s folder old /\ ~ holds s folder m.
Proof.
  intros ch fs folder old m D R Ho. exists (List.length (model_order ch)). cbv zeta.
  assert (E : forall p, inside folder p -> killed (List.length (model_order ch)) (saveAs ch fs folder true m) fs p = None).
  { intros p Hp. unfold killed. rewrite (saveAs_overwrite ch fs folder m); [|auto|auto]. rewrite D. rewrite firstn_app, map_length, Nat.sub_diag, app_nil_r. rewrite firstn_all2 by (rewrite map_length; lia).
    pose proof (cleared_inside ch fs folder (fun _ _ _ => D) (fun _ => R) p Hp) as C. unfold cleared in C. now rewrite D in C. }
  split; [exact E|]. split; intros [H _]; rewrite E in H; try discriminate; apply inside_app.
Qed.
(** A task of which only an empty description was written is taken for complete when it is created again. *)
Theorem half_saved_task_refuted : forall ch fs folder m, folder <> [] -> (forall p, inside folder p -> fs p = None) ->
  exists k, let s := killed k (saveAs ch fs folder true m) fs in task_exists s folder = true /\ s (folder ++ [lit "model.config"]) = Some (File []) /\
    (forall p, inside (folder ++ [lit "default"]) p -> s p = None) /\ (config m <> [] -> ~ holds s folder m).
Proof.
  intros ch fs folder m Hf Hn. exists (List.length folder + 1). cbv zeta.
  assert (D : is_directory fs folder = false) by (unfold is_directory; rewrite Hn; [reflexivity|apply inside_refl]).
  assert (Hn' : forall p, inside folder p -> fs p <> None -> is_directory fs folder = true). { intros p Hp Hx. destruct Hx. now apply Hn. }
  assert (Hr : is_directory fs folder = true -> removal fs folder (model_order ch)) by (rewrite D; discriminate).
  assert (E : killed (List.length folder + 1) (saveAs ch fs folder true m) fs = run (create_directories folder ++ [Truncate (folder ++ [lit "model.config"])]) fs).
  { unfold killed. rewrite (saveAs_overwrite ch fs folder m Hn' Hr), D. cbn [app]. rewrite <- app_assoc. f_equal.
    assert (L : List.length (create_directories folder) = List.length folder) by (unfold create_directories; rewrite map_length; apply seq_length).
    rewrite <- L, firstn_app_2. reflexivity. }
  rewrite E. rewrite run_app. cbn [run fold_left step]. change (fold_left step (create_directories folder)) with (run (create_directories folder)).
  rewrite in_folder_app by (unfold is_directory; rewrite run_create; [reflexivity|exact Hf|apply Hn, inside_refl]). set (s := put _ _ _). assert (Sc : s (folder ++ [lit "model.config"]) = Some (File [])) by apply put_same.
  assert (N : folder ++ [lit "model.config"] <> folder). { intros X. rewrite <- (app_nil_r folder) in X at 2. apply app_inv_head in X. discriminate. }
  assert (Sf : s folder = Some Folder). { unfold s. rewrite put_other by exact N. apply run_create; [exact Hf|]. apply Hn, inside_refl. }
  split; [unfold task_exists, exists_; now rewrite Sf, Sc|]. split; [exact Sc|]. split.
  - intros p Hp. unfold s. rewrite put_other. + rewrite run_create_other; [apply Hn; eapply inside_trans; [apply inside_app|exact Hp]|]. intros X. eapply (inside_cons folder (lit "default") []). eapply inside_trans; [exact Hp|exact X].
    + intros <-. revert Hp. apply inside_apart. discriminate.
  - intros Hc [H _]. rewrite Sc in H. injection H as H. now rewrite <- H in Hc.
Qed.

(** ** C82 *)
(** Saving without overwriting, beside a model that is there: wherever it is interrupted, every entry that
    existed is as before. *)
(** Partial, C82: that the new model can be loaded is refuted below. *)
Theorem no_overwrite_keeps_old_partial : forall ch fs base name m k p, let folder := base ++ [name] in
  let new := base ++ [name ++ lit "_" ++ model_stamp ch] in let new_knowledge := folder ++ [lit "default" ++ lit "_" ++ knowledge_stamp ch] in
  is_directory fs folder = true -> is_directory fs (folder ++ [lit "default"]) = true ->
  (forall q, inside new q \/ inside new_knowledge q -> fs q = None) -> fs p <> None ->
  killed k (saveAs ch fs folder false m) fs p = fs p.
Proof.
  intros ch fs base name m k p folder new new_knowledge D1 D2 Hn Hp. unfold killed. apply run_kept; [exact Hp|]. intros o Ho. apply firstn_incl in Ho. unfold saveAs in Ho. rewrite D1 in Ho.
  assert (Es : forall b n s, stamped (b ++ [n]) s = b ++ [n ++ lit "_" ++ s]). { intros. unfold stamped. now rewrite removelast_last, last_last. }
  assert (Ef : stamped folder (model_stamp ch) = new) by apply Es. rewrite Ef in Ho. cbn [app] in Ho.
  set (ops := create_directories new ++ write_file (new ++ [lit "model.config"]) (config m)) in *.
  assert (D3 : is_directory (run ops fs) (folder ++ [lit "default"]) = true).
  { unfold is_directory in *. unfold ops. rewrite run_kept; [exact D2|intros Z; rewrite Z in D2; discriminate|]. intros o' Ho'. apply in_app_or in Ho' as [H|H]; [right; now apply create_path in H|left].
    rewrite (write_path _ _ _ H). intros X. rewrite <- X, Hn in D2; [discriminate|]. left. apply inside_app. }
  unfold saveKnowledge, initialize_knowledge_path_directory in Ho. match type of Ho with context [is_directory ?a ?b] => replace (is_directory a b) with true in Ho by (symmetry; exact D3) end. rewrite Es in Ho. fold new_knowledge in Ho. unfold ops in Ho. rewrite !in_app_iff in Ho.
  destruct Ho as [[H|H]|[H|H]].
  - right. now apply create_path in H.
  - left. rewrite (write_path _ _ _ H). intros <-. apply Hp. apply Hn. left. apply inside_app.
  - right. now apply create_path in H.
  - left. apply (writes_path new_knowledge) in H as (label & _ & _ & ->). intros <-. apply Hp. apply Hn. right. apply inside_app.
Qed.
(** But the new model cannot be loaded: its description is in a new folder, its tensors are in the folder of
    the old model. *)
Theorem no_overwrite_refuted : forall ch fs base name m label bytes, let folder := base ++ [name] in
  let new := base ++ [name ++ lit "_" ++ model_stamp ch] in let new_knowledge := folder ++ [lit "default" ++ lit "_" ++ knowledge_stamp ch] in
  is_directory fs folder = true -> is_directory fs (folder ++ [lit "default"]) = true -> consistent m -> In (label, bytes) (layers m) ->
  (forall q, inside new q \/ inside new_knowledge q -> fs q = None) ->
  let after := run (saveAs ch fs folder false m) fs in
  ~ holds after new m /\ after (new ++ [lit "model.config"]) = Some (File (config m)) /\ (forall p, inside (new ++ [lit "default"]) p -> after p = None) /\
  after (new_knowledge ++ [label ++ lit ".tensor"]) = Some (File bytes).
Proof.
  intros ch fs base name m label bytes folder new new_knowledge D1 D2 C Hl Hn after.
  assert (Es : forall b n s, stamped (b ++ [n]) s = b ++ [n ++ lit "_" ++ s]). { intros. unfold stamped. now rewrite removelast_last, last_last. }
  assert (Nn : name <> name ++ lit "_" ++ model_stamp ch). { intros X. rewrite <- (app_nil_r name) in X at 1. apply app_inv_head in X. discriminate. }
  set (ops := create_directories new ++ write_file (new ++ [lit "model.config"]) (config m)).
  assert (D3 : is_directory (run ops fs) (folder ++ [lit "default"]) = true).
  { unfold is_directory in *. unfold ops. rewrite run_kept; [exact D2|intros Z; rewrite Z in D2; discriminate|]. intros o' Ho'. apply in_app_or in Ho' as [H|H]; [right; now apply create_path in H|left].
    rewrite (write_path _ _ _ H). intros X. rewrite <- X, Hn in D2; [discriminate|]. left. apply inside_app. }
  assert (E : after = run (create_directories new_knowledge ++ flat_map (fun '(label, bytes) => write_file (new_knowledge ++ [label ++ lit ".tensor"]) bytes) (layers m)) (run ops fs)).
  { unfold after, saveAs. rewrite D1. assert (Ef : stamped folder (model_stamp ch) = new) by apply Es. rewrite Ef. cbn [app]. fold ops. rewrite run_app. f_equal.
    unfold saveKnowledge, initialize_knowledge_path_directory. match goal with |- context [is_directory ?a ?b] => replace (is_directory a b) with true by (symmetry; exact D3) end. rewrite Es. reflexivity. }
  clearbody after. rewrite run_app in E. subst after.
  (* paths inside the new folder are not touched by the second half *)
  assert (P : forall p, inside new p -> p <> new -> run (flat_map (fun '(label, bytes) => write_file (new_knowledge ++ [label ++ lit ".tensor"]) bytes) (layers m)) (run (create_directories new_knowledge) (run ops fs)) p = run ops fs p).
  { intros p Hp Np. destruct Hp as [r ->]. destruct r as [|x r]; [now rewrite app_nil_r in Np|].
    rewrite (run_writes_other new_knowledge). - apply run_create_other. unfold new, new_knowledge, folder. rewrite <- !app_assoc. cbn [app]. apply inside_apart. congruence.
    - intros l X. unfold new, new_knowledge, folder in X. rewrite <- !app_assoc in X. cbn [app] in X. apply app_inv_head in X. injection X as X _. apply Nn; (exact X || (symmetry; exact X)). }
  assert (Pc : run ops fs (new ++ [lit "model.config"]) = Some (File (config m))) by (unfold ops; rewrite run_app; apply run_write; unfold is_directory; rewrite run_create; [reflexivity|now destruct base|apply Hn; left; apply inside_refl]).
  assert (Pd : forall p, inside (new ++ [lit "default"]) p -> run ops fs p = None).
  { intros p Hp. unfold ops. rewrite run_app, run_write_other. - rewrite run_create_other; [apply Hn; left; eapply inside_trans; [apply inside_app|exact Hp]|]. intros X. eapply (inside_cons new (lit "default") []). eapply inside_trans; [exact Hp|exact X].
    - intros <-. revert Hp. apply inside_apart. discriminate. }
  assert (Hnew : forall p, inside (new ++ [lit "default"]) p -> inside new p /\ p <> new).
  { intros p [r ->]. rewrite <- app_assoc. split; [apply inside_app|]. intros X. rewrite <- (app_nil_r new) in X at 2. apply app_inv_head in X. discriminate. }
  split; [|split; [|split]].
  - intros [_ H]. specialize (H label bytes Hl). assert (I : inside (new ++ [lit "default"]) (new ++ [lit "default"; label ++ lit ".tensor"])) by (exists [label ++ lit ".tensor"]; now rewrite <- app_assoc).
    rewrite P in H; [|now apply Hnew|now apply Hnew]. rewrite Pd in H by exact I. discriminate.
  - rewrite P; [exact Pc|apply inside_app|]. intros X. rewrite <- (app_nil_r new) in X at 2. apply app_inv_head in X. discriminate.
  - intros p Hp. rewrite P; [now apply Pd|now apply Hnew|now apply Hnew].
  - apply (run_writes new_knowledge); [|exact C|exact Hl]. unfold is_directory. rewrite run_create; [reflexivity|unfold new_knowledge; now destruct folder|].
    unfold ops. rewrite run_app, run_write_other. + rewrite run_create_other; [apply Hn; right; apply inside_refl|]. unfold new, new_knowledge, folder. rewrite <- app_assoc. cbn [app]. apply inside_apart. exact Nn.
    + intros X. unfold new, new_knowledge, folder in X. rewrite <- !app_assoc in X. cbn [app] in X. apply app_inv_head in X. injection X as X _. apply Nn. symmetry. exact X.
Qed.

(** ** Examples *)
Definition repo : path := [lit "repo"].
Definition net : path := [lit "repo"; lit "net"].
Definition old_model : saved := {| config := lit "old"; layers := [(lit "full_1", lit "aa")] |}.
Definition new_model : saved := {| config := lit "new"; layers := [(lit "full_1", lit "bb"); (lit "bias_2", lit "cc")] |}.
Definition disk : files := run (create_directories (net ++ [lit "default"]) ++ write_file (net ++ [lit "model.config"]) (lit "old") ++ write_file (net ++ [lit "default"; lit "full_1.tensor"]) (lit "aa")) (fun _ => None).
Definition found : list path := [net ++ [lit "model.config"]; net ++ [lit "default"; lit "full_1.tensor"]; net ++ [lit "default"]; net].
Definition luck : chance := {| model_order := found; knowledge_order := []; model_stamp := lit "7"; knowledge_stamp := lit "8" |}.
Lemma disk_entries : forall p, disk p <> None -> In p (repo :: found).
Proof.
  intros p H. unfold disk in H. destruct (in_dec path_eq_dec p (repo :: found)) as [I|I]; [exact I|]. destruct H. rewrite run_other; [reflexivity|].
  intros o Ho E. apply I. subst p. repeat (destruct Ho as [<-|Ho]; [cbn; tauto|]). destruct Ho.
Qed.
Lemma disk_removal : removal disk net found.
Proof.
  split.
  - intros p. split.
    + intros H. split; [|repeat (destruct H as [<-|H]; [eexists; reflexivity|]); destruct H]. repeat (destruct H as [<-|H]; [intros X; vm_compute in X; discriminate|]). destruct H.
    + intros [H I]. apply disk_entries in H as [<-|H]; [|exact H]. apply inside_longer in I. cbn in I. lia.
  - intros a p b q E Hq [I N]. destruct a as [|x1 [|x2 [|x3 [|x4 a]]]]; cbn in E; injection E; intros; subst;
      repeat (destruct Hq as [<-|Hq]; [destruct I as [r I]; (discriminate I || (injection I; intros; discriminate) || congruence)|]); try destruct Hq; destruct a; discriminate.
Qed.
Example replaced : holds (run (saveAs luck disk net true new_model) disk) net new_model.
Proof.
  apply save_replaces; [discriminate| |reflexivity|intros _; exact disk_removal].
  intros l b1 b2 H1 H2. repeat (destruct H1 as [H1|H1]; [injection H1 as <- <-|]); try destruct H1; repeat (destruct H2 as [H2|H2]; [injection H2; intros; subst; (reflexivity || discriminate)|]); destruct H2.
Qed.
Example nothing_left : exists k, let s := killed k (saveAs luck disk net true new_model) disk in (forall p, inside net p -> s p = None) /\ ~ holds s net old_model /\ ~ holds s net new_model.
Proof.
  apply save_crash_refuted; [reflexivity|exact disk_removal|]. split; [reflexivity|]. intros l b [H|[]]. injection H as <- <-. reflexivity.
Qed.
Example beside : run (saveAs luck disk net false new_model) disk [lit "repo"; lit "net"; lit "default_8"; lit "bias_2.tensor"] = Some (File (lit "cc")) /\
  run (saveAs luck disk net false new_model) disk [lit "repo"; lit "net_7"; lit "model.config"] = Some (File (lit "new")) /\
  run (saveAs luck disk net false new_model) disk [lit "repo"; lit "net_7"; lit "default"] = None.
Proof. repeat split. Qed.

Print Assumptions save_replaces.
Print Assumptions save_crash_partial.
Print Assumptions save_crash_refuted.
Print Assumptions half_saved_task_refuted.
Print Assumptions no_overwrite_keeps_old_partial.
Print Assumptions no_overwrite_refuted.
