(** Proofs about creating a task. *)
From Coq Require Import List Arith Bool String Ascii Lia.
From Verif Require Import Outcome Chars SaveFiles_Model SaveFiles_Spec SaveFiles_Proofs CreateTask_Model CreateTask_Spec.
Import ListNotations.

(** ** Paths *)
Lemma components_not_nil : forall s, components s <> [].
Proof. induction s as [|c s IH]; cbn; [discriminate|]. destruct (components s); [contradiction|]. destruct (ceq c "/"); discriminate. Qed.
Lemma components_plain : forall s, ~ In "/"%char s -> components s = [s].
Proof.
  induction s as [|c s IH]; intros H; [reflexivity|]. cbn. rewrite IH by (intros X; apply H; now right). destruct (ceq_spec c "/") as [->|N]; [|reflexivity]. destruct H. now left.
Qed.
Lemma components_slash : forall a b, components (a ++ "/"%char :: b) = components a ++ components b.
Proof.
  induction a as [|c a IH]; intros b; cbn [app components].
  - destruct (components b) eqn:E; [now apply components_not_nil in E|]. reflexivity.
  - rewrite IH. destruct (components a) eqn:E; [now apply components_not_nil in E|]. cbn [app]. now destruct (ceq c "/").
Qed.
Lemma resolve_slash : forall cwd a b, resolve cwd (a ++ "/"%char :: b) = fold_left enter (components b) (resolve cwd a).
Proof. intros. unfold resolve. now rewrite components_slash, fold_left_app. Qed.
Lemma resolve_last : forall cwd a n, plain n -> resolve cwd (a ++ "/"%char :: n) = resolve cwd a ++ [n].
Proof.
  intros cwd a n (N1 & N2 & N3 & N4). rewrite resolve_slash, components_plain by exact N2. cbn [fold_left]. unfold enter.
  destruct (seq_eqb_spec n []); [contradiction|]. destruct (seq_eqb_spec n (lit ".")); [contradiction|]. destruct (seq_eqb_spec n (lit "..")); [contradiction|]. reflexivity.
Qed.
Lemma plain_lit : forall n, existsb (fun c => ceq c "/") n = false -> negb (seq_eqb n []) && negb (seq_eqb n (lit ".")) && negb (seq_eqb n (lit "..")) = true -> plain n.
Proof.
  intros n H1 H2. destruct (seq_eqb_spec n []); [discriminate|]. destruct (seq_eqb_spec n (lit ".")); [discriminate|]. destruct (seq_eqb_spec n (lit "..")); [discriminate|].
  repeat split; try assumption. intros X. assert (Y : existsb (fun c => ceq c "/") n = true) by (apply existsb_exists; exists "/"%char; split; [exact X|apply ceq_refl]). congruence.
Qed.
Lemma resolve_tasks : forall cwd, resolve cwd get_base_task_folder_path = tasks_folder cwd.
Proof. intros. reflexivity. Qed.
Lemma resolve_task : forall cwd n, plain n -> resolve cwd (get_base_task_folder_path ++ n) = task_folder cwd n.
Proof. intros cwd n P. change (get_base_task_folder_path ++ n) with (lit "../happyml_repo/tasks" ++ "/"%char :: n). rewrite resolve_last by exact P. reflexivity. Qed.
Lemma resolve_logs : forall cwd, resolve cwd (get_base_task_folder_path ++ lit "/../logs") = logs_folder cwd.
Proof. intros. change (lit "/../logs") with ("/"%char :: lit "../logs"). rewrite resolve_slash, resolve_tasks. cbn. unfold tasks_folder. now rewrite removelast_last. Qed.
Lemma resolve_log : forall cwd, resolve cwd (get_base_task_folder_path ++ lit "/../logs/log.txt") = log_file cwd.
Proof. intros. change (lit "/../logs/log.txt") with (lit "/../logs" ++ "/"%char :: lit "log.txt"). rewrite app_assoc, resolve_last, resolve_logs by now apply plain_lit. reflexivity. Qed.
Lemma resolve_bin : forall cwd a, resolve cwd (a ++ lit "/dataset.bin") = resolve cwd a ++ [lit "dataset.bin"].
Proof. intros. change (lit "/dataset.bin") with ("/"%char :: lit "dataset.bin"). apply resolve_last. now apply plain_lit. Qed.

Lemma seq_eqb_refl : forall s : str, seq_eqb s s = true.
Proof. intros s. now destruct (seq_eqb_spec s s). Qed.

(** ** Operations *)
Lemma run_only_mkdir : forall ops fs p, (forall o, In o ops -> op_path o = p -> is_mkdir o) -> run ops fs p = fs p \/ fs p = None /\ run ops fs p = Some Folder /\ In (Mkdir p) ops.
Proof.
  intros ops fs p H. destruct (fs p) eqn:E.
  - left. rewrite <- E. apply run_kept; [congruence|]. intros o Ho. destruct (path_eq_dec (op_path o) p) as [X|X]; [right; now apply H|now left].
  - revert fs E. induction ops as [|o ops IH]; intros fs E; [left; exact E|]. cbn [run fold_left]. change (fold_left step ops (step fs o)) with (run ops (step fs o)). destruct (path_eq_dec (op_path o) p) as [X|X].
    + destruct (H o (or_introl eq_refl) X) as [q ->]. cbn in X. subst q. right. split; [reflexivity|].
      assert (G : step fs (Mkdir p) p = Some Folder) by (cbn [step]; rewrite E; apply put_same). split; [|now left]. rewrite run_kept; [exact G|rewrite G; discriminate|].
      intros o Ho. destruct (path_eq_dec (op_path o) p) as [X|X]; [right; apply H; [now right|exact X]|now left].
    + destruct (IH (fun o Ho => H o (or_intror Ho)) (step fs o)) as [G|(_ & G1 & G2)]; [now rewrite step_other| |].
      * left. exact G.
      * right. repeat split; [exact G1|now right].
Qed.
Definition is_append (o : op) : Prop := exists p c, o = Append p c.
Lemma run_grows : forall ops fs p c, fs p = Some (File c) -> (forall o, In o ops -> op_path o = p -> is_append o \/ is_mkdir o) -> exists t, run ops fs p = Some (File (c ++ t)).
Proof.
  induction ops as [|o ops IH]; intros fs p c E H; [exists []; now rewrite app_nil_r|]. cbn [run fold_left]. change (fold_left step ops (step fs o)) with (run ops (step fs o)).
  assert (H' : forall o', In o' ops -> op_path o' = p -> is_append o' \/ is_mkdir o') by (intros; apply H; [now right|assumption]). destruct (path_eq_dec (op_path o) p) as [X|X].
  - destruct (H o (or_introl eq_refl) X) as [(q & x & ->)|[q ->]]; cbn in X; subst q.
    + destruct (IH (step fs (Append p x)) p (c ++ [x])) as [t G]; [cbn [step]; rewrite E; apply put_same|exact H'|]. exists (x :: t). rewrite G, <- app_assoc. reflexivity.
    + apply IH; [cbn [step]; now rewrite E|exact H'].
  - apply IH; [now rewrite step_other|exact H'].
Qed.
Lemma killed_app : forall k a b fs, killed k (a ++ b) fs = killed k a fs /\ k <= List.length a \/ killed k (a ++ b) fs = killed (k - List.length a) b (run a fs) /\ List.length a <= k.
Proof.
  intros k a b fs. unfold killed. rewrite firstn_app. destruct (Nat.le_gt_cases k (List.length a)) as [L|L].
  - left. replace (k - List.length a) with 0 by lia. rewrite firstn_O, List.app_nil_r. auto.
  - right. rewrite (firstn_all2 a) by lia. rewrite run_app. split; [reflexivity|lia].
Qed.

(** ** The operations of the statement *)
Section Task.
Context (cwd : path) (learn : str -> option str -> str -> outcome (str * saved * str)) (name : str) (P : plain name).
Let T := tasks_folder cwd.
Let L := logs_folder cwd.
Let log := log_file cwd.
Let folder := task_folder cwd name.

Definition pre (fs : files) : list op := create_directories T ++ create_directories L ++ (if exists_ fs log then [] else [Truncate log]).
Definition stale (ch : choice) (fs : files) : list op := if exists_ fs folder then map Remove (stale_order ch) else [].
Definition lines_ops (lines : str) : list op := map (Append log) lines.

Lemma T_log : ~ inside T L /\ ~ inside L T.
Proof. unfold T, L, tasks_folder, logs_folder. split; apply inside_apart; discriminate. Qed.
Lemma folder_apart : forall q, inside folder q -> ~ inside q T /\ ~ inside q L /\ q <> log.
Proof.
  intros q [r ->]. unfold folder, task_folder, log, log_file. fold T L. repeat split.
  - rewrite <- app_assoc. apply inside_cons.
  - intros X. apply (proj1 T_log). eapply inside_trans; [|exact X]. rewrite <- app_assoc. apply inside_app.
  - intros X. apply (inside_apart (repo_folder cwd) (lit "tasks") [] (lit "logs") [lit "log.txt"]); [discriminate|].
    exists ([name] ++ r). replace (repo_folder cwd ++ lit "logs" :: [lit "log.txt"]) with (L ++ [lit "log.txt"]) by (unfold L, logs_folder; now rewrite <- app_assoc). rewrite <- X. unfold T, tasks_folder. now rewrite <- !app_assoc.
Qed.
Lemma folder_not_nil : folder <> [].
Proof. unfold folder, task_folder. destruct (tasks_folder cwd); discriminate. Qed.
Lemma pre_ops : forall fs o, In o (pre fs) -> (is_mkdir o /\ (inside (op_path o) T \/ inside (op_path o) L)) \/ o = Truncate log /\ fs log = None.
Proof.
  intros fs o. unfold pre. rewrite !in_app_iff. intros [H|[H|H]].
  - apply create_path in H as [H1 H2]. left. auto.
  - apply create_path in H as [H1 H2]. left. auto.
  - unfold exists_ in H. destruct (fs log) eqn:E; [destruct H|]. destruct H as [<-|[]]. right. auto.
Qed.
Lemma firstn_in : forall X k (l : list X) x, In x (firstn k l) -> In x l.
Proof. intros X k l x H. rewrite <- (firstn_skipn k l). apply in_or_app. now left. Qed.
Lemma pre_inside : forall k fs fs' q, inside folder q -> killed k (pre fs) fs' q = fs' q.
Proof.
  intros k fs fs' q Hq. apply run_other. intros o Ho E. apply firstn_in in Ho. destruct (folder_apart q Hq) as (A & B & C). destruct (pre_ops fs o Ho) as [[_ [H|H]]|[-> _]]; cbn in *; subst; auto.
Qed.
Lemma pre_run : forall fs q, inside folder q -> run (pre fs) fs q = fs q.
Proof. intros fs q Hq. pose proof (pre_inside (List.length (pre fs)) fs fs q Hq) as E. unfold killed in E. now rewrite firstn_all in E. Qed.
Lemma config_inside : inside folder (folder ++ [lit "model.config"]).
Proof. apply inside_app. Qed.
Lemma pre_task_exists : forall fs, task_exists (run (pre fs) fs) folder = task_exists fs folder.
Proof. intros. unfold task_exists, exists_. now rewrite !pre_run by (apply inside_refl || apply config_inside). Qed.
Lemma pre_stale : forall ch fs, stale ch (run (pre fs) fs) = stale ch fs.
Proof. intros. unfold stale, exists_. now rewrite pre_run by apply inside_refl. Qed.
Lemma lines_ops_in : forall lines o, In o (lines_ops lines) -> op_path o = log /\ is_append o.
Proof. intros lines o H. apply in_map_iff in H as (c & <- & _). split; [reflexivity|]. exists log, c. reflexivity. Qed.
Lemma not_dot : seq_eqb (last (components (get_base_task_folder_path ++ name)) []) (lit ".") = false.
Proof.
  change (get_base_task_folder_path ++ name) with (lit "../happyml_repo/tasks" ++ "/"%char :: name). rewrite components_slash, (components_plain name) by apply P. rewrite last_last. destruct P as (_ & _ & N & _). now destruct (seq_eqb_spec name (lit ".")).
Qed.

(** The files as they are when the datasets are read. *)
Definition before_learning (ch : choice) (fs : files) (goal d : str) : files := run (pre fs ++ stale ch fs ++ lines_ops (creating name goal d)) fs.
Definition data_path (d : str) : path := resolve cwd (get_dataset_path d ++ lit "/dataset.bin").
Definition learned (fs : files) (goal d t : str) : outcome (str * saved * str) :=
  match content fs (data_path d) with
  | None => Throw
  | Some data => if seq_eqb t [] then learn data None goal else match content fs (data_path t) with None => Throw | Some test => learn data (Some test) goal end
  end.

Lemma create_shape : forall ch fs type goal d t,
  create_task cwd learn ch fs type name goal d t =
  if negb (dataset_exists cwd fs d) || negb (seq_eqb (lit "label") type) then ([], Failed)
  else if task_exists fs folder then (pre fs, Succeeded)
  else let ops := pre fs ++ stale ch fs ++ lines_ops (creating name goal d) in
    match learned (before_learning ch fs goal d) goal d t with
    | Throw => (ops, Failed)
    | UB => (ops, Undefined)
    | Ok (lines, m, metadata) =>
        (ops ++ lines_ops lines ++ saveAs (saving ch) (run (lines_ops lines) (before_learning ch fs goal d)) folder true m ++ write_file (folder ++ [lit "dataset.bin"]) metadata, Succeeded)
    end.
Proof.
  intros ch fs type goal d t. unfold create_task. destruct (dataset_exists cwd fs d); cbn [negb orb]; [|reflexivity]. destruct (seq_eqb (lit "label") type); cbn [negb]; [|reflexivity].
  unfold create_label_task. rewrite resolve_tasks, resolve_logs, resolve_log, resolve_bin, (resolve_bin cwd (get_base_task_folder_path ++ name)), (resolve_task cwd name P). fold T L log folder. fold (pre fs). cbv zeta. unfold after.
  rewrite pre_task_exists. destruct (task_exists fs folder); [now rewrite List.app_nil_r|].
  assert (E : (if exists_ (run (pre fs) fs) folder then remove_all (stale_order ch) (get_base_task_folder_path ++ name) else ([], true)) = (stale ch fs, true)).
  { rewrite <- (pre_stale ch fs). unfold stale, remove_all. rewrite not_dot. now destruct (exists_ (run (pre fs) fs) folder). }
  rewrite E. clear E. cbn [fst snd negb].
  assert (B : run (map (Append log) (creating name goal d)) (run (stale ch fs) (run (pre fs) fs)) = before_learning ch fs goal d) by (unfold before_learning; now rewrite !run_app).
  rewrite B. unfold learned, data_path. rewrite !resolve_bin.
  destruct (content (before_learning ch fs goal d) (resolve cwd (get_dataset_path d) ++ [lit "dataset.bin"])) as [data|]; [|cbn [fst snd]; now rewrite List.app_nil_r].
  destruct (seq_eqb t []) eqn:Et.
  - cbn [seq_eqb negb andb]. destruct (learn data None goal) as [[[lines m] metadata]| |]; cbn [fst snd]; rewrite ?List.app_nil_r; try reflexivity. now rewrite <- !app_assoc.
  - assert (N : seq_eqb (get_dataset_path t) [] = false) by reflexivity. rewrite N. cbn [negb andb].
    destruct (content (before_learning ch fs goal d) (resolve cwd (get_dataset_path t) ++ [lit "dataset.bin"])) as [test|]; cbn [fst snd]; [|now rewrite List.app_nil_r].
    destruct (learn data (Some test) goal) as [[[lines m] metadata]| |]; cbn [fst snd]; rewrite ?List.app_nil_r; try reflexivity. now rewrite <- !app_assoc.
Qed.

(** ** What is in the folder of the task *)
Section Fresh.
Context (ch : choice) (fs : files) (R : exists_ fs folder = true -> removal fs folder (stale_order ch)) (Ro : rooted fs folder).

Lemma stale_paths : forall o, In o (stale ch fs) -> inside folder (op_path o).
Proof. intros o. unfold stale. destruct (exists_ fs folder) eqn:E; [|intros []]. intros H. apply in_map_iff in H as (q & <- & H). now apply (R eq_refl). Qed.
Lemma stale_clears : forall q fs', inside folder q -> fs' q = fs q -> run (stale ch fs) fs' q = None.
Proof.
  intros q fs' Hq E. unfold stale. destruct (exists_ fs folder) eqn:X.
  - rewrite run_removes. destruct (in_dec path_eq_dec q (stale_order ch)) as [I|I]; [reflexivity|]. rewrite E. destruct (fs q) eqn:F; [|reflexivity]. destruct I. apply (R eq_refl). rewrite F. split; [discriminate|exact Hq].
  - cbn. rewrite E. destruct (fs q) eqn:F; [|reflexivity]. unfold exists_ in X. specialize (Ro q Hq). rewrite F in Ro. destruct (fs folder); [discriminate|]. now destruct Ro.
Qed.
Lemma lines_kept : forall k lines fs' q, q <> log -> killed k (lines_ops lines) fs' q = fs' q.
Proof. intros k lines fs' q N. apply run_other. intros o Ho. apply firstn_in in Ho. apply lines_ops_in in Ho as [-> _]. congruence. Qed.
Lemma lines_run : forall lines fs' q, q <> log -> run (lines_ops lines) fs' q = fs' q.
Proof. intros lines fs' q N. pose proof (lines_kept (List.length (lines_ops lines)) lines fs' q N) as E. unfold killed in E. now rewrite firstn_all in E. Qed.
Lemma before_clear : forall goal d lines q, inside folder q -> run (lines_ops lines) (before_learning ch fs goal d) q = None.
Proof.
  intros goal d lines q Hq. destruct (folder_apart q Hq) as (_ & _ & N). rewrite lines_run by exact N. unfold before_learning. rewrite !run_app, lines_run by exact N. apply stale_clears; [exact Hq|]. now apply pre_run.
Qed.
Section Save.
Context (goal d lines : str) (m : saved).
Let start := run (lines_ops lines) (before_learning ch fs goal d).
Lemma start_none : forall q, inside folder q -> start q = None. Proof. intros q Hq. now apply before_clear. Qed.
Lemma start_n : forall q, inside folder q -> start q <> None -> is_directory start folder = true. Proof. intros q Hq H. destruct H. now apply start_none. Qed.
Lemma start_r : is_directory start folder = true -> removal start folder (model_order (saving ch)). Proof. unfold is_directory. rewrite start_none by apply inside_refl. discriminate. Qed.
Lemma save_ops : saveAs (saving ch) start folder true m = create_directories folder ++ write_file (folder ++ [lit "model.config"]) (config m) ++
  create_directories (folder ++ [lit "default"]) ++ flat_map (fun '(label, bytes) => write_file ((folder ++ [lit "default"]) ++ [label ++ lit ".tensor"]) bytes) (layers m).
Proof.
  rewrite (saveAs_overwrite (saving ch) start folder m start_n start_r). assert (D : is_directory start folder = false) by (unfold is_directory; now rewrite start_none by apply inside_refl).
  rewrite D. cbn [app]. now rewrite <- app_assoc.
Qed.
Lemma save_op : forall o, In o (saveAs (saving ch) start folder true m) -> inside folder (op_path o) \/ is_mkdir o /\ inside (op_path o) T.
Proof.
  intros o. rewrite save_ops, !in_app_iff. assert (G : forall p r, is_mkdir p -> inside (op_path p) (folder ++ r) -> List.length r <= 1 -> inside folder (op_path p) \/ is_mkdir p /\ inside (op_path p) T).
  { intros p r M [x E] Lr. destruct (le_lt_dec (List.length folder) (List.length (op_path p))) as [Q|Q].
    - left. exists (skipn (List.length folder) (op_path p)). rewrite <- (firstn_skipn (List.length folder) (op_path p)) at 1. f_equal. apply (f_equal (firstn (List.length folder))) in E.
      rewrite firstn_app, Nat.sub_diag, firstn_O, List.app_nil_r, firstn_all in E. rewrite firstn_app in E. replace (List.length folder - List.length (op_path p)) with 0 in E by lia. rewrite firstn_O, List.app_nil_r in E. now symmetry.
    - right. split; [exact M|]. exists (skipn (List.length (op_path p)) T). rewrite <- (firstn_skipn (List.length (op_path p)) T) at 1. f_equal. assert (LT : List.length folder = S (List.length T)) by (unfold folder, task_folder; fold T; rewrite app_length; cbn; lia).
      apply (f_equal (firstn (List.length (op_path p)))) in E. rewrite (firstn_app _ (op_path p)), Nat.sub_diag, firstn_O, List.app_nil_r, firstn_all in E. etransitivity; [|exact E]. unfold folder, task_folder. fold T. rewrite <- app_assoc, firstn_app. replace (List.length (op_path p) - List.length T) with 0 by lia. now rewrite firstn_O, List.app_nil_r. }
  intros [H|[H|[H|H]]].
  - apply create_path in H as [M I]. apply (G o []); [exact M|now rewrite List.app_nil_r|cbn; lia].
  - left. rewrite (write_path _ _ _ H). apply inside_app.
  - apply create_path in H as [M I]. apply (G o [lit "default"]); [exact M|exact I|cbn; lia].
  - left. apply (writes_path (folder ++ [lit "default"])) in H as (label & _ & _ & ->). rewrite <- app_assoc. apply inside_app.
Qed.
Lemma save_folder : run (saveAs (saving ch) start folder true m) start folder = Some Folder.
Proof.
  rewrite save_ops. assert (N : forall x r, folder ++ x :: r <> folder). { intros x r E. rewrite <- (List.app_nil_r folder) in E at 2. apply app_inv_head in E. discriminate. }
  rewrite !run_app. rewrite (run_writes_other (folder ++ [lit "default"])) by (intros label E; rewrite <- app_assoc in E; symmetry in E; now apply N in E).
  assert (F : run (create_directories folder) start folder = Some Folder) by (apply run_create; [exact folder_not_nil|apply start_none, inside_refl]).
  rewrite run_create_kept; rewrite run_write_other by apply N; rewrite F; [reflexivity|discriminate].
Qed.
Lemma save_complete : forall metadata, consistent m -> task_holds (run (saveAs (saving ch) start folder true m ++ write_file (folder ++ [lit "dataset.bin"]) metadata) start) folder m metadata.
Proof.
  intros metadata C. rewrite run_app. pose proof (overwrite_holds (saving ch) start folder m folder_not_nil start_n start_r C) as [H1 H2]. split; [split|].
  - rewrite run_write_other; [exact H1|]. intros E. apply app_inv_head in E. discriminate.
  - intros label bytes I. rewrite run_write_other; [now apply H2|]. intros E. apply app_inv_head in E. discriminate.
  - apply run_write. unfold is_directory. now rewrite save_folder.
Qed.
End Save.
End Fresh.

(** ** Everything the statement does *)
Definition allowed (fs : files) (o : op) : Prop :=
  inside folder (op_path o) \/ (is_mkdir o /\ (inside (op_path o) T \/ inside (op_path o) L)) \/ (op_path o = log /\ is_append o) \/ o = Truncate log /\ fs log = None.
Lemma create_allowed : forall ch fs type goal d t, (exists_ fs folder = true -> removal fs folder (stale_order ch)) -> rooted fs folder ->
  forall o, In o (fst (create_task cwd learn ch fs type name goal d t)) -> allowed fs o.
Proof.
  intros ch fs type goal d t R Ro o. rewrite create_shape. destruct (_ || _); [intros []|]. assert (Hp : In o (pre fs) -> allowed fs o). { intros H. apply pre_ops in H as [H|H]; unfold allowed; auto. }
  destruct (task_exists fs folder); [exact Hp|]. assert (Hl : forall lines, In o (lines_ops lines) -> allowed fs o) by (intros lines H; apply lines_ops_in in H; unfold allowed; auto).
  cbv zeta. destruct (learned _ _ _ _) as [[[lines m] metadata]| |]; cbn [fst]; rewrite !in_app_iff; intros H.
  - destruct H as [[H|[H|H]]|[H|[H|H]]]; eauto.
    + left. now apply (stale_paths ch fs R).
    + destruct (save_op ch fs R Ro goal d lines m o H) as [H'|[H1 H2]]; unfold allowed; auto.
    + left. rewrite (write_path _ _ _ H). apply inside_app.
  - destruct H as [H|[H|H]]; eauto. left. now apply (stale_paths ch fs R).
  - destruct H as [H|[H|H]]; eauto. left. now apply (stale_paths ch fs R).
Qed.

(** ** The datasets are only read *)
Definition out_of_reach (q : path) : Prop := ~ inside folder q /\ q <> log /\ ~ inside q T /\ ~ inside q L.
Lemma allowed_kept : forall fs fs' ops q, (forall o, In o ops -> allowed fs o) -> out_of_reach q -> run ops fs' q = fs' q.
Proof.
  intros fs fs' ops q H (N1 & N2 & N3 & N4). apply run_other. intros o Ho E. destruct (H o Ho) as [X|[[_ [X|X]]|[[X _]|[-> _]]]]; rewrite ?E in *; auto.
Qed.
Lemma data_path_eq : forall d, plain d -> data_path d = repo_folder cwd ++ [lit "datasets"; d; lit "dataset.bin"].
Proof.
  intros d Pd. unfold data_path. rewrite resolve_bin. change (get_dataset_path d) with (lit "../happyml_repo/datasets" ++ "/"%char :: d). rewrite resolve_last by exact Pd.
  change (resolve cwd (lit "../happyml_repo/datasets")) with (repo_folder cwd ++ [lit "datasets"]). now rewrite <- !app_assoc.
Qed.
Lemma data_out_of_reach : forall d, plain d -> out_of_reach (data_path d).
Proof.
  intros d Pd. rewrite data_path_eq by exact Pd. unfold out_of_reach, folder, task_folder, log, log_file, T, L, tasks_folder, logs_folder. repeat split.
  - rewrite <- !app_assoc. apply inside_apart. discriminate.
  - rewrite <- !app_assoc. intros E. apply app_inv_head in E. discriminate.
  - apply inside_apart. discriminate.
  - apply inside_apart. discriminate.
Qed.
Lemma learned_same : forall fs fs' goal d t, plain d -> t = [] \/ plain t -> (forall q, out_of_reach q -> fs' q = fs q) -> learned fs' goal d t = learned fs goal d t.
Proof.
  intros fs fs' goal d t Pd Pt H. unfold learned, content. rewrite (H (data_path d)) by now apply data_out_of_reach. destruct (fs (data_path d)) as [[|data]|]; try reflexivity.
  destruct (seq_eqb_spec t []) as [E|E]; [reflexivity|]. destruct Pt as [Pt|Pt]; [contradiction|]. now rewrite (H (data_path t)) by now apply data_out_of_reach.
Qed.
Section Kills.
Context (ch : choice) (fs : files) (R : exists_ fs folder = true -> removal fs folder (stale_order ch)) (Ro : rooted fs folder).
Lemma before_kept : forall goal d q, out_of_reach q -> before_learning ch fs goal d q = fs q.
Proof.
  intros goal d q Hq. unfold before_learning. apply (allowed_kept fs); [|exact Hq]. intros o. rewrite !in_app_iff. intros [H|[H|H]].
  - apply pre_ops in H as [H|H]; unfold allowed; auto. - left. now apply (stale_paths ch fs R). - apply lines_ops_in in H. unfold allowed. auto.
Qed.
Lemma kill_kept : forall k type goal d t q, out_of_reach q -> killed k (fst (create_task cwd learn ch fs type name goal d t)) fs q = fs q.
Proof. intros k type goal d t q Hq. apply (allowed_kept fs); [|exact Hq]. intros o Ho. apply firstn_in in Ho. now apply (create_allowed ch fs type goal d t R Ro). Qed.

(** ** What is in a folder that is not there is not there, at every moment *)
Lemma run_present : forall ops fs' q, (forall o, In o ops -> ~ exists p, o = Remove p) -> fs' q <> None -> run ops fs' q <> None.
Proof.
  induction ops as [|o ops IH]; intros fs' q H N; [exact N|]. cbn [run fold_left]. change (fold_left step ops (step fs' o)) with (run ops (step fs' o)). apply IH; [intros; apply H; now right|].
  destruct (path_eq_dec (op_path o) q) as [E|E]; [|now rewrite step_other]. destruct o as [p|p|p|p c]; cbn [op_path step] in *; subst.
  - destruct (H (Remove q) (or_introl eq_refl)). eauto. - destruct (fs' q) eqn:X; [congruence|now destruct N]. - destruct (in_folder fs' q); [now rewrite put_same|exact N].
  - destruct (fs' q) as [[|x]|] eqn:X; [congruence|now rewrite put_same|now destruct N].
Qed.
Lemma tail_rooted : forall j rest fs', (forall q, inside folder q -> fs' q = None) -> (forall o, In o rest -> ~ exists p, o = Remove p) -> rooted (killed j (create_directories folder ++ rest) fs') folder.
Proof.
  intros j rest fs' N NR q Hq. destruct (killed_app j (create_directories folder) rest fs') as [[-> _]|[-> _]].
  - destruct (path_eq_dec q folder) as [->|E]; [tauto|]. intros X. destruct X. unfold killed. rewrite run_other; [now apply N|]. intros o Ho X. apply firstn_in in Ho. apply create_path in Ho as [_ I]. rewrite X in I. destruct Hq as [r ->]. destruct r as [|a r]; [now rewrite List.app_nil_r in E|]. now apply inside_cons in I.
  - intros _. unfold killed. apply run_present; [intros o Ho; apply NR; now apply firstn_in in Ho|]. rewrite run_create; [discriminate|exact folder_not_nil|apply N, inside_refl].
Qed.
Lemma stale_rooted : forall j fs', (forall q, inside folder q -> fs' q = fs q) -> rooted (killed j (stale ch fs) fs') folder.
Proof.
  intros j fs' E q Hq. unfold killed, stale. destruct (exists_ fs folder) eqn:X.
  - rewrite firstn_map, !run_removes. destruct (in_dec path_eq_dec q (firstn j (stale_order ch))) as [I|I]; [now intros []|]. destruct (in_dec path_eq_dec folder (firstn j (stale_order ch))) as [I'|I'].
    + intros N. rewrite E in N by exact Hq. exfalso. destruct (R eq_refl) as [R1 R2]. assert (Iq : In q (stale_order ch)) by now apply R1. rewrite <- (firstn_skipn j (stale_order ch)) in Iq. apply in_app_or in Iq as [Iq|Iq]; [contradiction|].
      apply in_split in I' as (a & b & Ef). apply (R2 a folder (b ++ skipn j (stale_order ch)) q); [|apply in_or_app; now right|].
      * rewrite <- (firstn_skipn j (stale_order ch)) at 1. rewrite Ef, <- app_assoc. reflexivity.
      * split; [exact Hq|]. intros <-. apply I. rewrite Ef. apply in_or_app. right. now left.
    + rewrite !E by (exact Hq || apply inside_refl). now apply Ro.
  - rewrite firstn_nil. cbn. rewrite !E by (exact Hq || apply inside_refl). now apply Ro.
Qed.
Lemma none_rooted : forall fs', (forall q, inside folder q -> fs' q = None) -> rooted fs' folder.
Proof. intros fs' H q Hq N. destruct N. now apply H. Qed.
Lemma rooted_kill : forall k type goal d t, rooted (killed k (fst (create_task cwd learn ch fs type name goal d t)) fs) folder.
Proof.
  intros k type goal d t. rewrite create_shape. assert (F : rooted (killed k [] fs) folder) by (unfold killed; now rewrite firstn_nil). destruct (_ || _); [exact F|].
  assert (Fp : forall j, rooted (killed j (pre fs) fs) folder). { intros j q Hq. rewrite !pre_inside by (exact Hq || apply inside_refl). now apply Ro. }
  destruct (task_exists fs folder); [apply Fp|]. cbv zeta.
  assert (G : forall rest, (forall j, rooted (killed j rest (before_learning ch fs goal d)) folder) -> rooted (killed k ((pre fs ++ stale ch fs ++ lines_ops (creating name goal d)) ++ rest) fs) folder).
  { intros rest Hrest. destruct (killed_app k (pre fs ++ stale ch fs ++ lines_ops (creating name goal d)) rest fs) as [[-> _]|[-> _]]; [|apply Hrest].
    destruct (killed_app k (pre fs) (stale ch fs ++ lines_ops (creating name goal d)) fs) as [[-> _]|[-> _]]; [apply Fp|]. generalize (k - List.length (pre fs)). intros j.
    destruct (killed_app j (stale ch fs) (lines_ops (creating name goal d)) (run (pre fs) fs)) as [[-> _]|[-> _]]; [apply stale_rooted; intros; now apply pre_run|].
    apply none_rooted. intros q Hq. destruct (folder_apart q Hq) as (_ & _ & N). rewrite lines_kept by exact N. apply (stale_clears ch fs R Ro); [exact Hq|now apply pre_run]. }
  assert (G0 : forall j, rooted (killed j [] (before_learning ch fs goal d)) folder).
  { intros j. apply none_rooted. intros q Hq. unfold killed. rewrite firstn_nil. exact (before_clear ch fs R Ro goal d [] q Hq). }
  destruct (learned _ _ _ _) as [[[lines m] metadata]| |]; cbn [fst].
  - apply G. intros j. destruct (killed_app j (lines_ops lines) (saveAs (saving ch) (run (lines_ops lines) (before_learning ch fs goal d)) folder true m ++ write_file (folder ++ [lit "dataset.bin"]) metadata) (before_learning ch fs goal d)) as [[-> _]|[-> _]].
    + apply none_rooted. intros q Hq. destruct (folder_apart q Hq) as (_ & _ & N). rewrite lines_kept by exact N. exact (before_clear ch fs R Ro goal d [] q Hq).
    + rewrite (save_ops ch fs R Ro goal d lines m), <- !app_assoc. apply tail_rooted; [intros q Hq; now apply (before_clear ch fs R Ro)|].
      intros o. rewrite !in_app_iff. intros H [p ->]. assert (W : forall a b, ~ In (Remove p) (write_file a b)) by (intros a b [X|X]; [discriminate|]; apply in_map_iff in X as (c & X & _); discriminate).
      destruct H as [H|[H|[H|H]]]; [now apply W in H| | |now apply W in H].
      * apply create_path in H as [[x H] _]. discriminate. * apply in_flat_map in H as ([label bytes] & _ & H). now apply W in H.
  - specialize (G [] G0). now rewrite List.app_nil_r in G.
  - specialize (G [] G0). now rewrite List.app_nil_r in G.
Qed.
End Kills.

(** The task after it was created. *)
Lemma created : forall ch fs type goal d t ops, (exists_ fs folder = true -> removal fs folder (stale_order ch)) -> rooted fs folder -> plain d -> t = [] \/ plain t ->
  consistent_networks learn -> task_exists fs folder = false -> create_task cwd learn ch fs type name goal d t = (ops, Succeeded) ->
  exists lines m metadata, learned fs goal d t = Ok (lines, m, metadata) /\ task_holds (run ops fs) folder m metadata /\
    ops = (pre fs ++ stale ch fs ++ lines_ops (creating name goal d)) ++ lines_ops lines ++ saveAs (saving ch) (run (lines_ops lines) (before_learning ch fs goal d)) folder true m ++ write_file (folder ++ [lit "dataset.bin"]) metadata.
Proof.
  intros ch fs type goal d t ops R Ro Pd Pt C X. rewrite create_shape, X. destruct (_ || _); [discriminate|]. cbv zeta. rewrite (learned_same fs (before_learning ch fs goal d) goal d t Pd Pt (before_kept ch fs R goal d)).
  destruct (learned fs goal d t) as [[[lines m] metadata]| |] eqn:El; try discriminate. intros E. assert (E' := f_equal fst E). cbn [fst] in E'. clear E. symmetry in E'. exists lines, m, metadata. split; [reflexivity|]. split; [|exact E'].
  rewrite E', !(run_app (_ ++ _)), (run_app (lines_ops lines)). change (run (pre fs ++ stale ch fs ++ lines_ops (creating name goal d)) fs) with (before_learning ch fs goal d). apply (save_complete ch fs R Ro goal d lines m metadata).
  unfold learned in El. destruct (content fs (data_path d)); [|discriminate]. destruct (seq_eqb t []); [now apply C in El|]. destruct (content fs (data_path t)); [now apply C in El|discriminate].
Qed.
End Task.
