(** Proofs about saving a model. *)
From Coq Require Import List Arith Bool String Ascii Lia.
From Verif Require Import Outcome Chars SaveFiles_Model SaveFiles_Spec.
Import ListNotations.

Definition op_path (o : op) : path := match o with Remove p => p | Mkdir p => p | Truncate p => p | Append p _ => p end.

Lemma put_same : forall fs p e, put fs p e p = e.
Proof. intros. unfold put. now destruct (path_eq_dec p p). Qed.
Lemma put_other : forall fs p e q, p <> q -> put fs p e q = fs q.
Proof. intros. unfold put. now destruct (path_eq_dec p q). Qed.
Lemma step_other : forall fs o p, op_path o <> p -> step fs o p = fs p.
Proof. intros fs [q|q|q|q c] p H; cbn [op_path step] in *; try now apply put_other. - destruct (fs q); [reflexivity|now apply put_other]. - destruct (in_folder fs q); [now apply put_other|reflexivity]. - destruct (fs q) as [[|]|]; auto. now apply put_other. Qed.
Lemma run_app : forall a b fs, run (a ++ b) fs = run b (run a fs).
Proof. intros. apply fold_left_app. Qed.
Lemma run_other : forall ops fs p, (forall o, In o ops -> op_path o <> p) -> run ops fs p = fs p.
Proof.
  induction ops as [|o ops IH]; intros fs p H; [reflexivity|]. cbn [run fold_left]. change (fold_left step ops (step fs o)) with (run ops (step fs o)). rewrite IH by (intros o' Ho; apply H; now right).
  apply step_other. apply H. now left.
Qed.
Definition is_mkdir (o : op) : Prop := exists p, o = Mkdir p.
Lemma run_kept : forall ops fs p, fs p <> None -> (forall o, In o ops -> op_path o <> p \/ is_mkdir o) -> run ops fs p = fs p.
Proof.
  induction ops as [|o ops IH]; intros fs p Hp H; [reflexivity|]. cbn [run fold_left]. change (fold_left step ops (step fs o)) with (run ops (step fs o)).
  assert (E : step fs o p = fs p). { destruct (H o (or_introl eq_refl)) as [N|[q ->]]; [now apply step_other|]. cbn [step]. destruct (fs q) eqn:Eq; [reflexivity|]. apply put_other. intros ->. contradiction. }
  rewrite IH; [exact E|now rewrite E|]. intros o' Ho. apply H. now right.
Qed.

Lemma write_path : forall p c o, In o (write_file p c) -> op_path o = p.
Proof. intros p c o [<-|H]; [reflexivity|]. apply in_map_iff in H as (x & <- & _). reflexivity. Qed.
Lemma in_folder_app : forall fs base n, is_directory fs base = true -> in_folder fs (base ++ [n]) = true.
Proof. intros fs base n H. unfold in_folder. rewrite removelast_last. destruct base; [reflexivity|exact H]. Qed.
Lemma run_write : forall base n c fs, is_directory fs base = true -> run (write_file (base ++ [n]) c) fs (base ++ [n]) = Some (File c).
Proof.
  intros base n c fs Hd. cbn [write_file run fold_left step]. rewrite in_folder_app by exact Hd. set (p := base ++ [n]). assert (G : forall c fs d, fs p = Some (File d) -> run (map (Append p) c) fs p = Some (File (d ++ c))).
  { clear. induction c as [|x c IH]; intros fs d H; cbn [map]; [now rewrite app_nil_r|]. cbn [run fold_left step]. rewrite H. change (fold_left step (map (Append p) c)) with (run (map (Append p) c)).
    rewrite (IH _ (d ++ [x])) by apply put_same. now rewrite <- app_assoc. }
  exact (G c _ [] (put_same _ _ _)).
Qed.
Lemma run_write_other : forall p c fs q, p <> q -> run (write_file p c) fs q = fs q.
Proof. intros. apply run_other. intros o Ho. now rewrite (write_path _ _ _ Ho). Qed.

Lemma create_path : forall p o, In o (create_directories p) -> is_mkdir o /\ inside (op_path o) p.
Proof. intros p o H. apply in_map_iff in H as (n & <- & _). split; [eexists; reflexivity|]. exists (skipn n p). cbn. now rewrite firstn_skipn. Qed.
Lemma run_mkdirs : forall ops fs p, (forall o, In o ops -> is_mkdir o) -> fs p = None -> In (Mkdir p) ops -> run ops fs p = Some Folder.
Proof.
  induction ops as [|o ops IH]; intros fs p H Hp Hi; [destruct Hi|]. cbn [run fold_left]. change (fold_left step ops (step fs o)) with (run ops (step fs o)).
  destruct (H o (or_introl eq_refl)) as [q ->]. destruct (path_eq_dec q p) as [->|N].
  - assert (E : step fs (Mkdir p) p = Some Folder) by (cbn [step]; rewrite Hp; apply put_same). rewrite run_kept; [exact E|rewrite E; discriminate|]. intros o Ho. right. apply H. now right.
  - destruct Hi as [Hi|Hi]; [congruence|]. apply IH; [intros; apply H; now right| |exact Hi]. rewrite step_other; [exact Hp|exact N].
Qed.
Lemma run_create : forall p fs, p <> [] -> fs p = None -> run (create_directories p) fs p = Some Folder.
Proof.
  intros p fs Hp H. apply run_mkdirs; [intros o Ho; now apply create_path in Ho|exact H|]. apply in_map_iff. exists (List.length p). split; [now rewrite firstn_all|]. apply in_seq. destruct p; [contradiction|cbn; lia].
Qed.
Lemma run_create_kept : forall p fs q, fs q <> None -> run (create_directories p) fs q = fs q.
Proof. intros. apply run_kept; [assumption|]. intros o Ho. right. now apply create_path in Ho. Qed.
Lemma run_create_other : forall p fs q, ~ inside q p -> run (create_directories p) fs q = fs q.
Proof. intros p fs q H. apply run_other. intros o Ho E. apply create_path in Ho as [_ Ho]. now rewrite E in Ho. Qed.

Lemma run_removes : forall l fs p, run (map Remove l) fs p = if in_dec path_eq_dec p l then None else fs p.
Proof.
  induction l as [|q l IH]; intros fs p; [reflexivity|]. cbn [map run fold_left step]. change (fold_left step (map Remove l)) with (run (map Remove l)). rewrite IH.
  destruct (in_dec path_eq_dec p l), (in_dec path_eq_dec p (q :: l)) as [I|I]; auto.
  - destruct I. now right.
  - destruct I as [->|I]; [apply put_same|contradiction].
  - apply put_other. intros ->. apply I. now left.
Qed.

Lemma inside_refl : forall p, inside p p.
Proof. intros p. exists []. now rewrite app_nil_r. Qed.
Lemma inside_app : forall p r, inside p (p ++ r).
Proof. intros. now exists r. Qed.
Lemma inside_trans : forall p q r, inside p q -> inside q r -> inside p r.
Proof. intros p q r [a ->] [b ->]. exists (a ++ b). now rewrite app_assoc. Qed.
Lemma inside_longer : forall p q, inside p q -> (List.length p <= List.length q)%nat.
Proof. intros p q [r ->]. rewrite app_length. lia. Qed.
Lemma inside_cons : forall p a r, ~ inside (p ++ a :: r) p.
Proof. intros p a r H. apply inside_longer in H. rewrite app_length in H. cbn in H. lia. Qed.
(** Two ways down from the same folder. *)
Lemma inside_apart : forall p a r b t, a <> b -> ~ inside (p ++ a :: r) (p ++ b :: t).
Proof. intros p a r b t N [s E]. rewrite <- app_assoc in E. apply app_inv_head in E. injection E as E _. congruence. Qed.

Section Layers.
(** Writing the layers into [base]. *)
Context (base : path).
Let file (label : str) : path := base ++ [label ++ lit ".tensor"].
Let writes (l : list (str * str)) : list op := flat_map (fun '(label, bytes) => write_file (file label) bytes) l.
Lemma file_inj : forall a b, file a = file b -> a = b.
Proof. intros a b E. apply app_inv_head in E. injection E as E. now apply app_inv_tail in E. Qed.
Lemma writes_path : forall l o, In o (writes l) -> exists label bytes, In (label, bytes) l /\ op_path o = file label.
Proof. intros l o H. apply in_flat_map in H as ((label & bytes) & Hi & Ho). exists label, bytes. split; [exact Hi|]. now apply write_path in Ho. Qed.
Lemma run_writes_other : forall l fs p, (forall label, p <> file label) -> run (writes l) fs p = fs p.
Proof. intros l fs p H. apply run_other. intros o Ho E. apply writes_path in Ho as (label & _ & _ & Eo). apply (H label). congruence. Qed.
Lemma run_writes_base : forall l fs, run (writes l) fs base = fs base.
Proof. intros l fs. apply run_writes_other. intros label E. unfold file in E. rewrite <- (app_nil_r base) in E at 1. apply app_inv_head in E. discriminate. Qed.
Lemma run_writes : forall l fs label bytes, is_directory fs base = true -> (forall n b1 b2, In (n, b1) l -> In (n, b2) l -> b1 = b2) -> In (label, bytes) l -> run (writes l) fs (file label) = Some (File bytes).
Proof.
  induction l as [|[n b] l IH] using rev_ind; intros fs label bytes Hd C H; [destruct H|]. unfold writes. rewrite flat_map_app, run_app. cbn [flat_map app]. rewrite app_nil_r.
  destruct (list_eq_dec ascii_dec n label) as [->|N].
  - change (file label) with (base ++ [label ++ lit ".tensor"]). rewrite run_write by (unfold is_directory; fold (writes l); rewrite run_writes_base; exact Hd). f_equal. f_equal. apply (C label); [|exact H]. apply in_or_app. right. now left.
  - rewrite run_write_other by (intros E; apply file_inj in E; contradiction). apply IH; [exact Hd| |].
    + intros a b1 b2 H1 H2. apply (C a); apply in_or_app; now left.
    + apply in_app_or in H as [H|[E|[]]]; [exact H|]. congruence.
Qed.
Lemma run_writes_new : forall l fs p, run (writes l) fs p <> None -> fs p <> None \/ exists label bytes, In (label, bytes) l /\ p = file label.
Proof.
  intros l fs p H. destruct (in_dec path_eq_dec p (map op_path (writes l))) as [I|I].
  - apply in_map_iff in I as (o & <- & Ho). apply writes_path in Ho as (label & bytes & Hi & E). eauto.
  - left. rewrite run_other in H; [exact H|]. intros o Ho E. apply I. apply in_map_iff. eauto.
Qed.
End Layers.

Lemma config_default : lit "model.config" <> lit "default".
Proof. discriminate. Qed.

Section Overwrite.
Context (ch : chance) (fs : files) (folder : path) (m : saved).
Context (Hf : folder <> []) (Hn : forall p, inside folder p -> fs p <> None -> is_directory fs folder = true).
Context (Hr : is_directory fs folder = true -> removal fs folder (model_order ch)).

Definition cleared : files := run (if is_directory fs folder then map Remove (model_order ch) else []) fs.
Lemma cleared_inside : forall p, inside folder p -> cleared p = None.
Proof.
  intros p Hp. unfold cleared. destruct (is_directory fs folder) eqn:D.
  - rewrite run_removes. destruct (in_dec path_eq_dec p (model_order ch)) as [I|I]; [reflexivity|]. destruct (Hr eq_refl) as [R _]. destruct (fs p) eqn:E; [|reflexivity]. destruct I. apply R. rewrite E. split; [discriminate|exact Hp].
  - cbn. destruct (fs p) eqn:E; [|reflexivity]. specialize (Hn p Hp). rewrite E in Hn. specialize (Hn ltac:(discriminate)). congruence.
Qed.
Let described : list op := create_directories folder ++ write_file (folder ++ [lit "model.config"]) (config m).
Lemma described_inside : forall p, inside folder p -> p <> folder -> p <> folder ++ [lit "model.config"] -> run described cleared p = None.
Proof.
  intros p Hp N1 N2. unfold described. rewrite run_app, run_write_other by congruence. rewrite run_create_other; [now apply cleared_inside|].
  intros [r E]. destruct Hp as [t ->]. rewrite <- app_assoc in E. rewrite <- (app_nil_r folder) in E at 1. apply app_inv_head in E. symmetry in E. apply app_eq_nil in E as [-> _]. now rewrite app_nil_r in N1.
Qed.
Lemma described_folder : run described cleared folder = Some Folder.
Proof.
  unfold described. rewrite run_app, run_write_other. - apply run_create; [exact Hf|]. apply cleared_inside, inside_refl. - intros E. rewrite <- (app_nil_r folder) in E at 2. apply app_inv_head in E. discriminate.
Qed.
Lemma described_config : run described cleared (folder ++ [lit "model.config"]) = Some (File (config m)).
Proof.
  unfold described. rewrite run_app. apply run_write. unfold is_directory. rewrite run_create; [reflexivity|exact Hf|]. apply cleared_inside, inside_refl.
Qed.

Lemma saveAs_overwrite : saveAs ch fs folder true m = (if is_directory fs folder then map Remove (model_order ch) else []) ++ described ++
  create_directories (folder ++ [lit "default"]) ++ flat_map (fun '(label, bytes) => write_file ((folder ++ [lit "default"]) ++ [label ++ lit ".tensor"]) bytes) (layers m).
Proof.
  unfold saveAs. assert (E : (if is_directory fs folder then (map Remove (model_order ch), folder) else ([], folder)) = ((if is_directory fs folder then map Remove (model_order ch) else []), folder)) by now destruct (is_directory fs folder).
  rewrite E. clear E. rewrite <- app_assoc. fold described. f_equal. f_equal. rewrite run_app. fold cleared. unfold saveKnowledge, initialize_knowledge_path_directory.
  assert (is_directory (run described cleared) (folder ++ [lit "default"]) = false) as ->; [|reflexivity].
  unfold is_directory. rewrite described_inside; [reflexivity|apply inside_app| |].
  - intros E. rewrite <- (app_nil_r folder) in E at 2. apply app_inv_head in E. discriminate.
  - intros E. apply app_inv_head in E. injection E as E. discriminate.
Qed.

Lemma overwrite_holds : consistent m -> holds (run (saveAs ch fs folder true m) fs) folder m.
Proof.
  intros C. rewrite saveAs_overwrite, run_app, run_app. fold cleared. rewrite run_app. split.
  - rewrite (run_writes_other (folder ++ [lit "default"])).
    + rewrite run_create_kept; rewrite described_config; [reflexivity|discriminate].
    + intros label E. rewrite <- app_assoc in E. apply app_inv_head in E. discriminate.
  - intros label bytes H. change (folder ++ [lit "default"; label ++ lit ".tensor"]) with (folder ++ ([lit "default"] ++ [label ++ lit ".tensor"])). rewrite app_assoc.
    apply (run_writes (folder ++ [lit "default"])); [|exact C|exact H]. unfold is_directory. rewrite run_create; [reflexivity|now destruct folder|].
    apply described_inside; [apply inside_app| |].
    + intros E. rewrite <- (app_nil_r folder) in E at 2. apply app_inv_head in E. discriminate.
    + intros E. apply app_inv_head in E. injection E as E. discriminate.
Qed.
Lemma overwrite_nothing_else : forall p, inside folder p -> run (saveAs ch fs folder true m) fs p <> None ->
  p = folder \/ p = folder ++ [lit "model.config"] \/ p = folder ++ [lit "default"] \/ exists label bytes, In (label, bytes) (layers m) /\ p = folder ++ [lit "default"; label ++ lit ".tensor"].
Proof.
  intros p Hp. rewrite saveAs_overwrite, run_app, run_app. fold cleared. rewrite run_app. intros H. apply (run_writes_new (folder ++ [lit "default"])) in H as [H|(label & bytes & Hi & ->)].
  - destruct (path_eq_dec p folder) as [->|N1]; [now left|right]. destruct (path_eq_dec p (folder ++ [lit "model.config"])) as [->|N2]; [now left|right].
    destruct (path_eq_dec p (folder ++ [lit "default"])) as [->|N3]; [now left|]. destruct H. rewrite run_create_other; [now apply described_inside|].
    intros [r E]. destruct Hp as [t ->]. rewrite <- app_assoc in E. apply app_inv_head in E. destruct t as [|a [|b t]]; [now rewrite app_nil_r in N1| |discriminate]. injection E as <- <-. contradiction.
  - right. right. right. exists label, bytes. split; [exact Hi|]. now rewrite <- app_assoc.
Qed.
Lemma overwrite_paths : forall o, In o (saveAs ch fs folder true m) -> inside folder (op_path o) \/ inside (op_path o) folder.
Proof.
  intros o. rewrite saveAs_overwrite. unfold described. rewrite !in_app_iff. intros [H|[[H|H]|[H|H]]].
  - destruct (is_directory fs folder); [|destruct H]. apply in_map_iff in H as (p & <- & Hp). left. now apply (Hr eq_refl).
  - right. now apply create_path in H.
  - left. rewrite (write_path _ _ _ H). apply inside_app.
  - apply create_path in H as [_ [r E]]. destruct r as [|x r].
    + left. rewrite app_nil_r in E. rewrite <- E. apply inside_app.
    + right. destruct (exists_last (l := x :: r)) as (r' & y & Er); [discriminate|]. rewrite Er, app_assoc in E. apply app_inj_tail in E as [E _]. now exists r'.
  - left. apply (writes_path (folder ++ [lit "default"])) in H as (label & _ & _ & ->). rewrite <- app_assoc. apply inside_app.
Qed.
End Overwrite.
