(** C96, C97: the files of a task that is created, also when creating it is interrupted. *)
From Coq Require Import List Arith Bool String Ascii Lia.
From Verif Require Import Outcome Chars SaveFiles_Model SaveFiles_Spec SaveFiles_Proofs CreateTask_Model CreateTask_Spec CreateTask_Proofs.
Import ListNotations.
From Verif Require Parser_Model.

Section Props.
Context (cwd : path) (learn : str -> option str -> str -> outcome (str * saved * str)).

(** ** C96 *)
(** Wherever creating a task is interrupted, everything outside its folder and the log is as before, except that
    the folders of the tasks and of the log may have been created. *)
(** Partial, C96: this is refuted below for names that are not the name of one entry. *)
Theorem create_task_keeps_partial : forall ch fs type name goal d t k p, plain name ->
  (exists_ fs (task_folder cwd name) = true -> removal fs (task_folder cwd name) (stale_order ch)) -> rooted fs (task_folder cwd name) ->
  ~ inside (task_folder cwd name) p -> p <> log_file cwd ->
  let s := killed k (fst (create_task cwd learn ch fs type name goal d t)) fs in
  s p = fs p \/ fs p = None /\ s p = Some Folder /\ (inside p (tasks_folder cwd) \/ p = logs_folder cwd).
Proof.
  intros ch fs type name goal d t k p P R Ro N1 N2 s. assert (A : forall o, In o (firstn k (fst (create_task cwd learn ch fs type name goal d t))) -> op_path o = p -> is_mkdir o /\ (inside p (tasks_folder cwd) \/ inside p (logs_folder cwd))).
  { intros o Ho E. apply firstn_in in Ho. destruct (create_allowed cwd learn name P ch fs type goal d t R Ro o Ho) as [X|[[M X]|[[X _]|[-> _]]]]; rewrite ?E in *; try contradiction; [now split|]. cbn in E. now destruct N2. }
  destruct (run_only_mkdir _ fs p (fun o Ho E => proj1 (A o Ho E))) as [X|(X1 & X2 & X3)]; [now left|right]. split; [exact X1|]. split; [exact X2|]. destruct (A _ X3 eq_refl) as [_ [X|X]]; [now left|].
  destruct X as [r E]. unfold logs_folder in *. destruct (exists_last (l := p ++ r)) as (a & b & Ea); [rewrite <- E; now destruct (repo_folder cwd)|]. destruct r as [|x r]; [right; now rewrite List.app_nil_r in E|left].
  destruct (exists_last (l := x :: r)) as (r' & y & Er); [discriminate|]. rewrite Er, app_assoc in E. apply app_inj_tail in E as [E _]. exists (r' ++ [lit "tasks"]). unfold tasks_folder. now rewrite app_assoc, <- E.
Qed.
(** The log only grows. *)
Theorem create_task_log : forall ch fs type name goal d t k c, plain name ->
  (exists_ fs (task_folder cwd name) = true -> removal fs (task_folder cwd name) (stale_order ch)) -> rooted fs (task_folder cwd name) ->
  fs (log_file cwd) = Some (File c) -> exists lines, killed k (fst (create_task cwd learn ch fs type name goal d t)) fs (log_file cwd) = Some (File (c ++ lines)).
Proof.
  intros ch fs type name goal d t k c P R Ro Hl. apply run_grows; [exact Hl|]. intros o Ho E. apply firstn_in in Ho. destruct (create_allowed cwd learn name P ch fs type goal d t R Ro o Ho) as [X|[[M X]|[[_ X]|[_ X]]]]; [|now right|now left|congruence].
  rewrite E in X. now apply (folder_apart cwd name) in X.
Qed.
(** A task that is there is left alone. *)
Theorem existing_task_kept : forall ch fs type name goal d t k p, plain name -> task_exists fs (task_folder cwd name) = true -> inside (task_folder cwd name) p ->
  killed k (fst (create_task cwd learn ch fs type name goal d t)) fs p = fs p.
Proof.
  intros ch fs type name goal d t k p P X Hp. rewrite (create_shape cwd learn name P), X. destruct (_ || _); [unfold killed; now rewrite firstn_nil|]. now apply (pre_inside cwd name).
Qed.

Lemma resolve_root : forall n, n = lit "/" \/ n = lit "." -> resolve cwd (get_base_task_folder_path ++ n) = tasks_folder cwd.
Proof. intros n [-> | ->]; reflexivity. Qed.
(** But the task names [/] and [.] are taken for the folder of all tasks: it is removed with every task in it. *)
Theorem other_tasks_lost_refuted : forall ch fs name goal d t, name = lit "/" \/ name = lit "." -> dataset_exists cwd fs d = true ->
  is_directory fs (tasks_folder cwd) = true -> fs (tasks_folder cwd ++ [lit "model.config"]) = None -> removal fs (tasks_folder cwd) (stale_order ch) ->
  let ops := fst (create_task cwd learn ch fs (lit "label") name goal d t) in
  (exists k, forall p, inside (tasks_folder cwd) p -> p <> tasks_folder cwd -> killed k ops fs p = None) /\
  forall other p, ~ In other [lit "model.config"; lit "default"; lit "dataset.bin"] -> inside (task_folder cwd other) p -> run ops fs p = None.
Proof.
  intros ch fs name goal d t Hn Hd D Hc [R1 R2] every. unfold every. clear every. unfold create_task. rewrite Hd, seq_eqb_refl. cbn [negb]. unfold create_label_task. rewrite resolve_tasks, resolve_logs, resolve_log, resolve_root by exact Hn. change (create_directories (tasks_folder cwd) ++ create_directories (logs_folder cwd) ++ (if exists_ fs (log_file cwd) then [] else [Truncate (log_file cwd)])) with (pre cwd fs). cbv zeta.
  assert (A : forall p, inside (tasks_folder cwd) p -> fs p <> None \/ p <> tasks_folder cwd -> run (pre cwd fs) fs p = fs p).
  { intros p Hp Np. destruct Np as [Np|Np].
    - apply run_kept; [exact Np|]. intros o Ho. apply pre_ops in Ho as [[M _]|[-> E]]; [now right|left]. cbn. intros <-. contradiction.
    - apply run_other. intros o Ho E. destruct Hp as [r ->]. destruct r as [|x r]; [now rewrite List.app_nil_r in Np|]. apply pre_ops in Ho as [[_ [H|H]]|[-> _]].
      + rewrite E in H. now apply inside_cons in H.
      + rewrite E in H. apply (proj1 (T_log cwd)). eapply inside_trans; [apply (inside_app _ (x :: r))|exact H].
      + cbn in E. unfold log_file, logs_folder, tasks_folder in E. rewrite <- !app_assoc in E. apply app_inv_head in E. discriminate. }
  assert (Ex : task_exists (run (pre cwd fs) fs) (tasks_folder cwd) = false).
  { unfold task_exists, exists_. rewrite (A (tasks_folder cwd ++ [lit "model.config"])), Hc; [apply andb_false_r|apply inside_app|right]. intros E. rewrite <- (List.app_nil_r (tasks_folder cwd)) in E at 2. apply app_inv_head in E. discriminate. }
  assert (Fo : fs (tasks_folder cwd) <> None) by (unfold is_directory in D; destruct (fs (tasks_folder cwd)); [discriminate|discriminate]).
  assert (Ef : exists_ (run (pre cwd fs) fs) (tasks_folder cwd) = true). { unfold exists_. rewrite A; [|apply inside_refl|now left]. now destruct (fs (tasks_folder cwd)). }
  rewrite Ex, Ef.
  set (gone := fst (remove_all (stale_order ch) (get_base_task_folder_path ++ name))).
  assert (G : forall p, inside (tasks_folder cwd) p -> p <> tasks_folder cwd -> run gone (run (pre cwd fs) fs) p = None).
  { intros p Hp Np. assert (S : exists l, gone = map Remove l /\ (forall q, In q (stale_order ch) -> q <> tasks_folder cwd -> In q l)).
    { unfold gone, remove_all. destruct (seq_eqb _ _); [|exists (stale_order ch); split; [reflexivity|tauto]]. exists (removelast (stale_order ch)). split; [reflexivity|]. intros q Hq Nq.
      assert (It : In (tasks_folder cwd) (stale_order ch)) by (apply R1; split; [exact Fo|apply inside_refl]). apply in_split in It as (a & b & E). assert (In q a).
      { rewrite E in Hq. apply in_app_or in Hq as [Hq|[Hq|Hq]]; [exact Hq|congruence|]. exfalso. apply (R2 a (tasks_folder cwd) b q E Hq). split; [|congruence]. apply R1. rewrite E. apply in_or_app. right. now right. }
      rewrite E, removelast_app by discriminate. apply in_or_app. now left. }
    destruct S as (l & -> & Hl). rewrite run_removes. destruct (in_dec path_eq_dec p l) as [I|I]; [reflexivity|]. rewrite A by (exact Hp || now right). destruct (fs p) eqn:E; [|reflexivity]. destruct I. apply Hl; [|exact Np]. apply R1. rewrite E. split; [discriminate|exact Hp]. }
  split.
  { exists (List.length (pre cwd fs) + List.length gone). intros p Hp Np. unfold after. cbn [fst]. unfold killed. rewrite firstn_app_2. rewrite run_app.
  destruct (remove_all (stale_order ch) (get_base_task_folder_path ++ name)) as [ops removed]. cbn [fst] in gone. cbn [fst]. rewrite firstn_app, Nat.sub_diag, firstn_O, List.app_nil_r, firstn_all. now apply G. }
  intros other p No [r Ep]. assert (Ep' : p = tasks_folder cwd ++ other :: r) by (rewrite Ep; unfold task_folder; now rewrite <- app_assoc). clear Ep. subst p. assert (Hp : inside (tasks_folder cwd) (tasks_folder cwd ++ other :: r)) by apply inside_app.
  assert (Np : tasks_folder cwd ++ other :: r <> tasks_folder cwd) by (intros E; rewrite <- (List.app_nil_r (tasks_folder cwd)) in E at 2; apply app_inv_head in E; discriminate).
  specialize (G _ Hp Np). unfold after. cbn [fst]. rewrite run_app. destruct (remove_all (stale_order ch) (get_base_task_folder_path ++ name)) as [ops removed] eqn:Er. cbn [fst] in gone. unfold gone in G. clear gone. cbn [fst]. rewrite run_app.
  rewrite run_other; [exact G|]. destruct removed; [|intros o []]. cbn [negb fst].
  assert (Ag : forall q, inside (tasks_folder cwd) q -> run ops (run (pre cwd fs) fs) q = None).
  { intros q Hq. assert (Eo : ops = map Remove (stale_order ch)) by (unfold remove_all in Er; destruct (seq_eqb _ _); congruence). rewrite Eo, run_removes. destruct (in_dec path_eq_dec q (stale_order ch)) as [I|I]; [reflexivity|].
    destruct (fs q) eqn:E; [|rewrite A; [exact E|exact Hq|right]]; [destruct I; apply R1; rewrite E; split; [discriminate|exact Hq]|]. intros ->. contradiction. }
  assert (Nl : forall q, inside (tasks_folder cwd) q -> log_file cwd <> q).
  { intros q [x ->] E. unfold log_file, logs_folder, tasks_folder in E. rewrite <- !app_assoc in E. apply app_inv_head in E. discriminate. }
  assert (Al : forall lines q fs', inside (tasks_folder cwd) q -> fs' q = None -> run (map (Append (log_file cwd)) lines) fs' q = None).
  { intros lines q fs' Hq E. rewrite run_other; [exact E|]. intros o Ho. apply in_map_iff in Ho as (c & <- & _). now apply Nl. }
  intros o Ho. apply in_app_or in Ho as [Ho|Ho]; [apply in_map_iff in Ho as (c & <- & _); now apply Nl|].
  destruct (content _ _) as [data|]; [|destruct Ho]. destruct (_ && _); [destruct Ho|]. destruct (learn _ _ _) as [[[lines m] metadata]| |]; cbn [fst] in Ho; [|destruct Ho|destruct Ho].
  apply in_app_or in Ho as [Ho|Ho]; [apply in_map_iff in Ho as (c & <- & _); now apply Nl|]. apply in_app_or in Ho as [Ho|Ho].
  - match type of Ho with In _ (saveAs _ ?x _ _ _) => set (start := x) in * end. assert (Z : forall q, inside (tasks_folder cwd) q -> start q = None) by (intros q Hq; unfold start; auto).
    rewrite (saveAs_overwrite (saving ch) start (tasks_folder cwd) m) in Ho; [|intros q Hq X; rewrite Z in X by exact Hq; now destruct X|unfold is_directory; rewrite Z by apply inside_refl; discriminate].
    assert (Df : is_directory start (tasks_folder cwd) = false) by (unfold is_directory; now rewrite Z by apply inside_refl). rewrite Df in Ho. rewrite !in_app_iff in Ho. destruct Ho as [[]|[[H|H]|[H|H]]]; intros E.
    + apply create_path in H as [_ H]. rewrite E in H. now apply inside_cons in H.
    + rewrite (write_path _ _ _ H) in E. apply app_inv_head in E. apply No. injection E as <- _. now left.
    + apply create_path in H as [_ [x H]]. rewrite E, <- app_assoc in H. apply app_inv_head in H. apply No. injection H as <- _. right. now left.
    + apply (writes_path (tasks_folder cwd ++ [lit "default"])) in H as (label & _ & _ & Ew). rewrite Ew, <- app_assoc in E. apply app_inv_head in E. apply No. injection E as <- _. right. now left.
  - rewrite (write_path _ _ _ Ho), resolve_bin, resolve_root by exact Hn. intros E. apply app_inv_head in E. apply No. injection E as <- _. right. right. now left.
Qed.

(** ** C97 *)
Context {network inputs : Type} (load : option str -> (str -> option str) -> outcome network) (answer : network -> str -> inputs -> outcome bool).

(** The network found for the datasets of the statement, with the metadata of its columns. *)
Definition found_network (fs : files) (goal d t : str) (m : saved) (metadata : str) : Prop :=
  exists data lines, content fs (repo_folder cwd ++ [lit "datasets"; d; lit "dataset.bin"]) = Some data /\
  (t = [] /\ learn data None goal = Ok (lines, m, metadata) \/
   t <> [] /\ exists test, content fs (repo_folder cwd ++ [lit "datasets"; t; lit "dataset.bin"]) = Some test /\ learn data (Some test) goal = Ok (lines, m, metadata)).
Lemma learned_found : forall fs goal d t lines m metadata, plain d -> t = [] \/ plain t -> learned cwd learn fs goal d t = Ok (lines, m, metadata) -> found_network fs goal d t m metadata.
Proof.
  intros fs goal d t lines m metadata Pd Pt. unfold learned, found_network. rewrite data_path_eq by exact Pd. destruct (content fs _) as [data|]; [|discriminate]. intros H. exists data, lines. split; [reflexivity|].
  destruct (seq_eqb_spec t []) as [E|E]; [now left|right]. split; [exact E|]. destruct Pt as [Pt|Pt]; [contradiction|]. rewrite data_path_eq in H by exact Pt. destruct (content fs _) as [test|]; [|discriminate]. now exists test.
Qed.
(** A task that is reported as created, and was not there before, is complete, and executing it uses the network that was found. *)
(** Partial, C97: a task that was there before, and one whose creation was interrupted, are refuted below. *)
Theorem created_task_partial : forall ch fs type name goal d t ops, plain name -> plain d -> t = [] \/ plain t -> consistent_networks learn ->
  (exists_ fs (task_folder cwd name) = true -> removal fs (task_folder cwd name) (stale_order ch)) -> rooted fs (task_folder cwd name) ->
  task_exists fs (task_folder cwd name) = false -> create_task cwd learn ch fs type name goal d t = (ops, Succeeded) ->
  let s := run ops fs in
  exists m metadata, found_network fs goal d t m metadata /\ task_holds s (task_folder cwd name) m metadata /\
    forall user_inputs, exists tensors, (forall label bytes, In (label, bytes) (layers m) -> tensors label = Some bytes) /\
      execute_task_with_inputs cwd load answer s name user_inputs = (do n <- load (Some (config m)) tensors; answer n metadata user_inputs).
Proof.
  intros ch fs type name goal d t ops P Pd Pt C R Ro X E s. destruct (created cwd learn name P ch fs type goal d t ops R Ro Pd Pt C X E) as (lines & m & metadata & El & H & _). exists m, metadata.
  split; [now apply learned_found in El|]. split; [exact H|]. intros user_inputs. destruct H as [[H1 H2] H3]. exists (fun label => content s (task_folder cwd name ++ [lit "default"; label ++ lit ".tensor"])). split.
  - intros label bytes I. unfold content. unfold s. now rewrite (H2 label bytes I).
  - unfold execute_task_with_inputs. rewrite resolve_bin, resolve_task by exact P. fold s in H1, H2, H3. assert (F : exists_ s (task_folder cwd name) = true).
    { unfold s. assert (Rs : rooted (run ops fs) (task_folder cwd name)).
      { pose proof (rooted_kill cwd learn name P ch fs R Ro (List.length ops) type goal d t) as K. rewrite E in K. cbn [fst] in K. unfold killed in K. now rewrite firstn_all in K. }
      specialize (Rs (task_folder cwd name ++ [lit "dataset.bin"]) (inside_app _ _)). unfold exists_. fold s in Rs |- *. rewrite H3 in Rs. destruct (s (task_folder cwd name)); [reflexivity|]. now destruct Rs. }
    rewrite F. cbn [negb]. unfold content at 1 3. rewrite H1, H3. reflexivity.
Qed.
(** Interrupted before the description of the network is there, the statement can be repeated: it then ends as it would have, with
    the same network. *)
Theorem repeated_creation_partial : forall ch ch' fs type name goal d t ops k, plain name -> plain d -> t = [] \/ plain t -> consistent_networks learn ->
  (exists_ fs (task_folder cwd name) = true -> removal fs (task_folder cwd name) (stale_order ch)) -> rooted fs (task_folder cwd name) ->
  task_exists fs (task_folder cwd name) = false -> create_task cwd learn ch fs type name goal d t = (ops, Succeeded) ->
  let s := killed k ops fs in s (task_folder cwd name ++ [lit "model.config"]) = None ->
  (exists_ s (task_folder cwd name) = true -> removal s (task_folder cwd name) (stale_order ch')) ->
  exists ops', create_task cwd learn ch' s type name goal d t = (ops', Succeeded) /\
    exists m metadata, found_network fs goal d t m metadata /\ task_holds (run ops fs) (task_folder cwd name) m metadata /\ task_holds (run ops' s) (task_folder cwd name) m metadata.
Proof.
  intros ch ch' fs type name goal d t ops k P Pd Pt C R Ro X E s Hs R'.
  destruct (created cwd learn name P ch fs type goal d t ops R Ro Pd Pt C X E) as (lines & m & metadata & El & H & _).
  assert (Ks : forall q, out_of_reach cwd name q -> s q = fs q). { intros q Hq. pose proof (kill_kept cwd learn name P ch fs R Ro k type goal d t q Hq) as K. now rewrite E in K. }
  assert (Rs : rooted s (task_folder cwd name)). { pose proof (rooted_kill cwd learn name P ch fs R Ro k type goal d t) as K. now rewrite E in K. }
  assert (Xs : task_exists s (task_folder cwd name) = false) by (unfold task_exists, exists_; rewrite Hs; apply andb_false_r).
  destruct (create_task cwd learn ch' s type name goal d t) as [ops' r] eqn:E'. assert (r = Succeeded).
  { rewrite (create_shape cwd learn name P) in E, E'. rewrite Xs in E'. rewrite X in E. assert (De : dataset_exists cwd s d = dataset_exists cwd fs d). { unfold dataset_exists, content. pose proof (Ks _ (data_out_of_reach cwd name d Pd)) as K. unfold data_path in K. now rewrite K. }
    rewrite De in E'. destruct (_ || _); [discriminate|]. cbv zeta in E'. rewrite (learned_same cwd learn name s (before_learning cwd name ch' s goal d) goal d t Pd Pt (before_kept cwd name ch' s R' goal d)) in E'.
    rewrite (learned_same cwd learn name fs s goal d t Pd Pt Ks), El in E'. congruence. }
  subst r. exists ops'. split; [reflexivity|]. destruct (created cwd learn name P ch' s type goal d t ops' R' Rs Pd Pt C Xs E') as (lines' & m' & metadata' & El' & H' & _).
  rewrite (learned_same cwd learn name fs s goal d t Pd Pt Ks), El in El'. injection El' as <- <- <-. exists m, metadata. split; [now apply learned_found in El|]. split; [exact H|exact H'].
Qed.
(** But interrupted after that, and before the metadata is there, repeating the statement changes nothing and reports the task as created,
    although executing it cannot succeed. *)
Lemma half_created : forall ch s type name goal d t, plain name -> s (task_folder cwd name) <> None -> s (task_folder cwd name ++ [lit "model.config"]) <> None ->
  s (task_folder cwd name ++ [lit "dataset.bin"]) = None -> dataset_exists cwd s d = true -> type = lit "label" ->
  snd (create_task cwd learn ch s type name goal d t) = Succeeded /\ forall user_inputs b, execute_task_with_inputs cwd load answer (run (fst (create_task cwd learn ch s type name goal d t)) s) name user_inputs <> Ok b.
Proof.
  intros ch s type name goal d t P F X1 X2 De ->. rewrite (create_shape cwd learn name P), De, seq_eqb_refl. cbn [negb orb]. assert (Xe : task_exists s (task_folder cwd name) = true).
  { unfold task_exists, exists_. destruct (s (task_folder cwd name)); [|contradiction]. destruct (s (task_folder cwd name ++ [lit "model.config"])); [reflexivity|contradiction]. }
  rewrite Xe. cbn [fst snd]. split; [reflexivity|]. intros user_inputs b. unfold execute_task_with_inputs. rewrite resolve_bin, resolve_task by exact P. unfold exists_. rewrite (pre_run cwd name) by apply inside_refl. destruct (s (task_folder cwd name)); [|contradiction]. cbn [negb].
  assert (Z : content (run (pre cwd s) s) (task_folder cwd name ++ [lit "dataset.bin"]) = None) by (unfold content; rewrite (pre_run cwd name) by apply inside_app; now rewrite X2).
  rewrite Z. destruct (load _ _); discriminate.
Qed.
Theorem interrupted_task_refuted : forall ch fs type name goal d t ops, plain name -> plain d -> t = [] \/ plain t -> consistent_networks learn ->
  (exists_ fs (task_folder cwd name) = true -> removal fs (task_folder cwd name) (stale_order ch)) -> rooted fs (task_folder cwd name) ->
  task_exists fs (task_folder cwd name) = false -> create_task cwd learn ch fs type name goal d t = (ops, Succeeded) ->
  (exists k m, let s := killed k ops fs in holds s (task_folder cwd name) m /\ s (task_folder cwd name ++ [lit "dataset.bin"]) = None) /\
  forall k, let s := killed k ops fs in s (task_folder cwd name ++ [lit "model.config"]) <> None -> s (task_folder cwd name ++ [lit "dataset.bin"]) = None ->
    forall ch', snd (create_task cwd learn ch' s type name goal d t) = Succeeded /\
      forall user_inputs b, execute_task_with_inputs cwd load answer (run (fst (create_task cwd learn ch' s type name goal d t)) s) name user_inputs <> Ok b.
Proof.
  intros ch fs type name goal d t ops P Pd Pt C R Ro X E. destruct (created cwd learn name P ch fs type goal d t ops R Ro Pd Pt C X E) as (lines & m & metadata & El & _ & Eo).
  assert (Hd : dataset_exists cwd fs d = true /\ type = lit "label").
  { rewrite (create_shape cwd learn name P) in E. destruct (dataset_exists cwd fs d); [|discriminate]. destruct (seq_eqb_spec (lit "label") type) as [Z|Z]; [now split|discriminate]. }
  split.
  - set (start := run (lines_ops cwd lines) (before_learning cwd name ch fs goal d)) in *. set (ops1 := (pre cwd fs ++ stale cwd name ch fs ++ lines_ops cwd (creating name goal d)) ++ lines_ops cwd lines ++ saveAs (saving ch) start (task_folder cwd name) true m) in *.
    exists (List.length ops1), m. cbv zeta. assert (Es : killed (List.length ops1) ops fs = run (saveAs (saving ch) start (task_folder cwd name) true m) start).
    { assert (Eo' : ops = ops1 ++ write_file (task_folder cwd name ++ [lit "dataset.bin"]) metadata) by (rewrite Eo; unfold ops1; now rewrite <- !app_assoc).
      unfold killed. rewrite Eo', firstn_app, Nat.sub_diag, firstn_O, List.app_nil_r, firstn_all. unfold ops1, start. now rewrite (run_app (_ ++ _)), run_app. }
    rewrite Es. assert (Cm : consistent m).
    { unfold learned in El. destruct (content fs (data_path cwd d)); [|discriminate]. destruct (seq_eqb t []); [now apply C in El|]. destruct (content fs (data_path cwd t)); [now apply C in El|discriminate]. }
    split; [apply overwrite_holds; [apply folder_not_nil|apply (start_n cwd name ch fs R Ro goal d lines)|apply (start_r cwd name ch fs R Ro goal d lines)|exact Cm]|].
    destruct (run (saveAs _ start _ true m) start (task_folder cwd name ++ [lit "dataset.bin"])) eqn:Z; [|reflexivity]. exfalso.
    destruct (overwrite_nothing_else (saving ch) start (task_folder cwd name) m (start_n cwd name ch fs R Ro goal d lines) (start_r cwd name ch fs R Ro goal d lines) (task_folder cwd name ++ [lit "dataset.bin"])) as [Y|[Y|[Y|(label & bytes & _ & Y)]]].
    + apply inside_app. + rewrite Z. discriminate.
    + rewrite <- (List.app_nil_r (task_folder cwd name)) in Y at 2. apply app_inv_head in Y. discriminate.
    + apply app_inv_head in Y. discriminate. + apply app_inv_head in Y. discriminate. + apply app_inv_head in Y. discriminate.
  - intros k s X1 X2 ch'. apply half_created; try assumption; [| |apply Hd].
    + assert (Rs : rooted s (task_folder cwd name)). { pose proof (rooted_kill cwd learn name P ch fs R Ro k type goal d t) as K. now rewrite E in K. } exact (Rs _ (inside_app _ _) X1).
    + unfold dataset_exists, content. pose proof (kill_kept cwd learn name P ch fs R Ro k type goal d t (data_path cwd d) (data_out_of_reach cwd name d Pd)) as K. rewrite E in K. cbn [fst] in K. fold s in K. unfold data_path in K. rewrite K. apply Hd.
Qed.
(** And a task that is there is reported as created from whatever dataset is named, but stays as it was. *)
Theorem existing_task_refuted : forall ch fs name goal d t old m, plain name -> dataset_exists cwd fs d = true -> fs (task_folder cwd name) <> None -> holds fs (task_folder cwd name) old ->
  config m <> config old \/ (exists label b1 b2, In (label, b1) (layers old) /\ In (label, b2) (layers m) /\ b1 <> b2) ->
  snd (create_task cwd learn ch fs (lit "label") name goal d t) = Succeeded /\ ~ holds (run (fst (create_task cwd learn ch fs (lit "label") name goal d t)) fs) (task_folder cwd name) m.
Proof.
  intros ch fs name goal d t old m P De F [H1 H2] Dm. rewrite (create_shape cwd learn name P), De, seq_eqb_refl. cbn [negb orb]. assert (Xe : task_exists fs (task_folder cwd name) = true).
  { unfold task_exists, exists_. rewrite H1. now destruct (fs (task_folder cwd name)). }
  rewrite Xe. cbn [fst snd]. split; [reflexivity|]. intros [G1 G2]. destruct Dm as [Dm|(label & b1 & b2 & I1 & I2 & Nb)].
  - rewrite (pre_run cwd name), H1 in G1 by apply inside_app. congruence.
  - specialize (G2 label b2 I2). rewrite (pre_run cwd name), (H2 label b1 I1) in G2 by apply inside_app. congruence.
Qed.
End Props.

(** ** Examples *)
Definition bin : path := [lit "bin"].
Definition in_repo (names : list str) : path := lit "happyml_repo" :: names.
Definition old_task : saved := {| config := lit "old"; layers := [(lit "full_1", lit "aa")] |}.
Definition new_task : saved := {| config := lit "new"; layers := [(lit "full_1", lit "bb")] |}.
(** A dataset, and a complete task [a]. *)
Definition shop : files := fun p =>
  if path_eq_dec p (in_repo [lit "datasets"; lit "d"; lit "dataset.bin"]) then Some (File (lit "rows"))
  else if path_eq_dec p (in_repo [lit "tasks"; lit "a"; lit "model.config"]) then Some (File (lit "old"))
  else if path_eq_dec p (in_repo [lit "tasks"; lit "a"; lit "default"; lit "full_1.tensor"]) then Some (File (lit "aa"))
  else if in_dec path_eq_dec p [in_repo []; in_repo [lit "datasets"]; in_repo [lit "datasets"; lit "d"]; in_repo [lit "tasks"]; in_repo [lit "tasks"; lit "a"]; in_repo [lit "tasks"; lit "a"; lit "default"]]
  then Some Folder else None.
Definition task_entries : list path := [in_repo [lit "tasks"; lit "a"; lit "model.config"]; in_repo [lit "tasks"; lit "a"; lit "default"; lit "full_1.tensor"]; in_repo [lit "tasks"; lit "a"; lit "default"];
  in_repo [lit "tasks"; lit "a"]; in_repo [lit "tasks"]].
Definition shop_entries : list path := [in_repo []; in_repo [lit "datasets"]; in_repo [lit "datasets"; lit "d"]; in_repo [lit "datasets"; lit "d"; lit "dataset.bin"]] ++ task_entries.
Definition train (data : str) (test : option str) (goal : str) : outcome (str * saved * str) := Ok (lit "ok", new_task, lit "columns").
Definition pick : choice := {| stale_order := task_entries; saving := {| model_order := []; knowledge_order := []; model_stamp := []; knowledge_stamp := [] |} |}.
Lemma shop_known : forall p, shop p <> None -> In p shop_entries.
Proof.
  intros p H. unfold shop in H. repeat (destruct (path_eq_dec _ _) as [->|_]; [cbn; tauto|]). destruct (in_dec path_eq_dec p _) as [I|I]; [cbn in I |- *; tauto|now destruct H].
Qed.
Lemma shop_removal : removal shop (tasks_folder bin) task_entries.
Proof.
  split.
  - intros p. split.
    + intros H. split; [|repeat (destruct H as [<-|H]; [eexists; reflexivity|]); destruct H]. repeat (destruct H as [<-|H]; [intros X; vm_compute in X; discriminate|]). destruct H.
    + intros [H I]. apply shop_known in H. destruct I as [r ->]. apply in_app_or in H as [H|H]; [|exact H]. repeat (destruct H as [H|H]; [discriminate H|]). destruct H.
  - intros a p b q E Hq [I N]. destruct a as [|x1 [|x2 [|x3 [|x4 [|x5 a]]]]]; cbn in E; injection E; intros; subst;
      repeat (destruct Hq as [<-|Hq]; [destruct I as [r I]; (discriminate I || (injection I; intros; discriminate) || congruence)|]); try destruct Hq; destruct a; discriminate.
Qed.
Lemma shop_fresh : rooted shop (task_folder bin (lit "b")).
Proof.
  intros p [r ->] H. apply shop_known in H. exfalso. repeat (destruct H as [H|H]; [discriminate H|]). destruct H.
Qed.
Lemma plain_b : plain (lit "b"). Proof. now apply plain_lit. Qed.
Lemma plain_d : plain (lit "d"). Proof. now apply plain_lit. Qed.
Lemma train_consistent : consistent_networks train.
Proof. intros data test goal lines m metadata H. injection H as <- <- <-. intros l b1 b2 [H1|[]] [H2|[]]. congruence. Qed.
Example new_task_created : exists ops, create_task bin train pick shop (lit "label") (lit "b") (lit "accuracy") (lit "d") [] = (ops, Succeeded) /\
  task_holds (run ops shop) (task_folder bin (lit "b")) new_task (lit "columns") /\
  (forall k, killed k ops shop (in_repo [lit "tasks"; lit "a"; lit "model.config"]) = Some (File (lit "old"))) /\
  exists k m, let s := killed k ops shop in holds s (task_folder bin (lit "b")) m /\ s (task_folder bin (lit "b") ++ [lit "dataset.bin"]) = None.
Proof.
  assert (R : exists_ shop (task_folder bin (lit "b")) = true -> removal shop (task_folder bin (lit "b")) (stale_order pick)) by discriminate.
  destruct (create_task bin train pick shop (lit "label") (lit "b") (lit "accuracy") (lit "d") []) as [ops r] eqn:E. assert (r = Succeeded) as ->.
  { rewrite (create_shape bin train (lit "b") plain_b) in E. change (dataset_exists bin shop (lit "d")) with true in E. change (seq_eqb (lit "label") (lit "label")) with true in E. change (task_exists shop (task_folder bin (lit "b"))) with false in E. cbn [negb orb] in E. cbv zeta in E.
    rewrite (learned_same bin train (lit "b") shop _ (lit "accuracy") (lit "d") [] plain_d (or_introl eq_refl) (before_kept bin (lit "b") pick shop R (lit "accuracy") (lit "d"))) in E.
    change (learned bin train shop (lit "accuracy") (lit "d") []) with (Ok (lit "ok", new_task, lit "columns")) in E. congruence. }
  exists ops. split; [reflexivity|]. destruct (created_task_partial bin train (fun _ _ => Ok tt) (fun _ _ (_ : unit) => Ok true) pick shop _ _ _ _ _ ops plain_b plain_d (or_introl eq_refl) train_consistent R shop_fresh eq_refl E) as (m & md & F & H & _).
  assert (m = new_task /\ md = lit "columns") as [-> ->] by (destruct F as (data & lines & _ & [[_ F]|[F _]]); [injection F; auto|now destruct F]).
  split; [exact H|]. split.
  - intros k. pose proof (create_task_keeps_partial bin train pick shop (lit "label") (lit "b") (lit "accuracy") (lit "d") [] k (in_repo [lit "tasks"; lit "a"; lit "model.config"]) plain_b R shop_fresh) as K. rewrite E in K. cbv zeta in K. cbn [fst] in K.
    destruct K as [K|(K & _)]; [intros [r X]; discriminate X|discriminate|rewrite K; reflexivity|discriminate K].
  - destruct (interrupted_task_refuted bin train (fun _ _ => Ok tt) (fun _ _ (_ : unit) => Ok true) pick shop _ _ _ _ _ ops plain_b plain_d (or_introl eq_refl) train_consistent R shop_fresh eq_refl E) as [K _]. exact K.
Qed.
Definition accepts (x : Parser_Model.presult (list Parser_Model.statement) + nat) (s : Parser_Model.statement) : Prop := match x with inl (Parser_Model.PVal l _) => l = [s] | _ => False end.
Example root_names : accepts (Parser_Model.parse (fun _ => true) (lit "create task label / using d")) (Parser_Model.SCreateTask (lit "label") (lit "/") (lit "accuracy") (lit "d") []) /\
  accepts (Parser_Model.parse (fun _ => true) (lit "create task label . using d")) (Parser_Model.SCreateTask (lit "label") (lit ".") (lit "accuracy") (lit "d") []).
Proof. split; lazy; reflexivity. Qed.
Example all_tasks_lost : exists k, killed k (fst (create_task bin train pick shop (lit "label") (lit "/") (lit "accuracy") (lit "d") [])) shop (in_repo [lit "tasks"; lit "a"; lit "model.config"]) = None.
Proof.
  destruct (other_tasks_lost_refuted bin train pick shop (lit "/") (lit "accuracy") (lit "d") [] (or_introl eq_refl) eq_refl eq_refl eq_refl shop_removal) as [[k H] _]. exists k. apply H; [|discriminate]. eexists; reflexivity.
Qed.
Example another_goal : snd (create_task bin train pick shop (lit "label") (lit "a") (lit "speed") (lit "d") []) = Succeeded /\
  ~ holds (run (fst (create_task bin train pick shop (lit "label") (lit "a") (lit "speed") (lit "d") [])) shop) (task_folder bin (lit "a")) new_task.
Proof.
  apply (existing_task_refuted bin train pick shop (lit "a") (lit "speed") (lit "d") [] old_task); [now apply plain_lit|reflexivity|discriminate| |left; discriminate]. split; [reflexivity|]. intros l b [I|[]]. injection I as <- <-. reflexivity.
Qed.

Print Assumptions create_task_keeps_partial.
Print Assumptions create_task_log.
Print Assumptions existing_task_kept.
Print Assumptions other_tasks_lost_refuted.
Print Assumptions created_task_partial.
Print Assumptions repeated_creation_partial.
Print Assumptions interrupted_task_refuted.
Print Assumptions existing_task_refuted.
