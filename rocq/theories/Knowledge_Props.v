(** C103: a network that was saved and loaded predicts what it predicted. *)
From Coq Require Import Ascii String List Arith Bool NArith Reals Lia FunctionalExtensionality.
From Verif Require Import Outcome Chars NumText_Proofs Tensor_Model Tensor_Spec Activation_Model Layer_Model Graph_Model Graph_Spec Graph_Forward Graph_Walk_Props Net_Model Net_Spec Net_Graph Net_Flow Knowledge_Model.
From Verif Require ModelFile_Model ModelFile_Spec ModelFile_Proofs ModelFile_Props.
Import ListNotations.
Local Open Scope nat_scope.

(** ** One vertex *)
(** Two parameters that a vertex cannot tell apart. *)
Definition alike (v : vertex) (p q : params) : Prop :=
  (ModelFile_Model.node_type v = ModelFile_Model.full -> weights p = weights q) /\ (ModelFile_Model.node_type v = ModelFile_Model.convolution2dValid -> kernels p = kernels q) /\
  (ModelFile_Model.use_bias v = true -> biases p = biases q).
Lemma alike_layer : forall v p q random training l xs, alike v p q -> In l (layers_of v) -> layer_forward v p random training l xs = layer_forward v q random training l xs.
Proof.
  intros v p q random training l xs (A1 & A2 & A3) I. destruct l; cbn [layer_forward]; try reflexivity.
  - unfold new_fc. rewrite A1; [reflexivity|]. unfold layers_of in I. destruct (ModelFile_Model.node_type v); try reflexivity; exfalso; try (destruct (1 <? _)); destruct (ModelFile_Model.use_bias v), (ModelFile_Model.use_normalization v); cbn in I; intuition discriminate.
  - rewrite A2; [reflexivity|]. unfold layers_of in I. destruct (ModelFile_Model.node_type v); try reflexivity; exfalso; try (destruct (1 <? _)); destruct (ModelFile_Model.use_bias v), (ModelFile_Model.use_normalization v); cbn in I; intuition discriminate.
  - unfold new_bias. rewrite A3; [reflexivity|]. unfold layers_of in I. destruct (ModelFile_Model.use_bias v); [reflexivity|]. exfalso. destruct (ModelFile_Model.node_type v); try (destruct (1 <? _)); destruct (ModelFile_Model.use_normalization v); cbn in I; intuition discriminate.
Qed.
Lemma alike_forward : forall v p q random training xs, alike v p q -> vertex_forward v p random training xs = vertex_forward v q random training xs.
Proof.
  intros v p q random training xs A. unfold vertex_forward. f_equal. assert (H : forall l, In l (layers_of v) -> forall xs, layer_forward v p random training l xs = layer_forward v q random training l xs) by (intros; now apply alike_layer).
  revert xs H. generalize (layers_of v). intros ls. induction ls as [|l ls IH]; intros xs H; [reflexivity|]. cbn [chain_forward]. rewrite (H l (or_introl eq_refl)). destruct (layer_forward v q random training l xs) as [y| |]; [|reflexivity|reflexivity]. cbn [obind]. rewrite IH; [reflexivity|]. intros. apply H. now right.
Qed.

Definition entries (id : nat) (v : vertex) (p : params) : list (str * T) :=
  (match ModelFile_Model.node_type v with
   | ModelFile_Model.full => [(full_name id, weights p)]
   | ModelFile_Model.convolution2dValid => combine (map (filter_name id) (filter_ids v)) (kernels p)
   | _ => []
   end) ++ (if ModelFile_Model.use_bias v then [(bias_name id, biases p)] else []).
Lemma filters_written : forall id (ks : list T) k n, length ks = n -> omapM (fun i => do w <- vec_at ks (i - k); Ok (filter_name id i, w)) (seq k n) = Ok (combine (map (filter_name id) (seq k n)) ks).
Proof.
  intros id ks k n L. revert ks k L. induction n as [|n IH]; intros [|w ks] k L; try discriminate L; [reflexivity|]. cbn [seq omapM map combine]. rewrite Nat.sub_diag. cbn [vec_at nth_error obind].
  assert (E : forall l, (forall i, In i l -> k < i) -> omapM (fun i => do x <- vec_at (w :: ks) (i - k); Ok (filter_name id i, x)) l = omapM (fun i => do x <- vec_at ks (i - S k); Ok (filter_name id i, x)) l).
  { induction l as [|i l IHl]; intros H; [reflexivity|]. cbn [omapM]. rewrite IHl by (intros; apply H; now right). specialize (H i (or_introl eq_refl)). replace (i - k) with (S (i - S k)) by lia. reflexivity. }
  unfold vec_at at 1. cbn [nth_error obind]. rewrite E by (intros i Hi; apply in_seq in Hi; lia). rewrite IH by (cbn in L; lia). reflexivity.
Qed.
Lemma written_ok : forall id v p, fit v p -> written id v p = Ok (entries id v p).
Proof.
  intros id v p (_ & F & _). unfold written, entries, filter_ids. destruct (ModelFile_Model.node_type v); try reflexivity. destruct (F eq_refl) as [L _]. pose proof (filters_written id (kernels p) 0 (N.to_nat (ModelFile_Model.filters v)) L) as E.
  assert (X : forall l, omapM (fun i => do w <- vec_at (kernels p) i; Ok (filter_name id i, w)) l = omapM (fun i => do w <- vec_at (kernels p) (i - 0); Ok (filter_name id i, w)) l).
  { induction l as [|i l IH]; [reflexivity|]. cbn [omapM]. rewrite IH, Nat.sub_0_r. reflexivity. }
  rewrite X, E. reflexivity.
Qed.

Lemma entries_names : forall id v p, fit v p -> map fst (entries id v p) = ModelFile_Model.files_of id v.
Proof.
  intros id v p (_ & F & _). unfold entries, ModelFile_Model.files_of. rewrite map_app. f_equal; [|destruct (ModelFile_Model.use_bias v); reflexivity]. destruct (ModelFile_Model.node_type v); try reflexivity. destruct (F eq_refl) as [L _].
  assert (X : forall (a : list str) (b : list T), length a = length b -> map fst (combine a b) = a). { induction a as [|x a IH]; intros [|y b] H; try discriminate H; [reflexivity|]. cbn. f_equal. apply IH. cbn in H. lia. }
  apply X. unfold filter_ids. rewrite map_length, seq_length. symmetry. exact L.
Qed.
Lemma NoDup_parts : forall {A} (a b : list A), NoDup (a ++ b) -> NoDup a /\ NoDup b.
Proof. intros A a b. induction a as [|x a IH]; intros H; [split; [constructor|exact H]|]. cbn [app] in H. apply NoDup_cons_iff in H as [H1 H2]. destruct (IH H2) as [I1 I2]. split; [|exact I2]. constructor; [|exact I1]. intros I. apply H1. apply in_or_app. now left. Qed.
Lemma unique_entry : forall (l : list (str * T)) n t t', NoDup (map fst l) -> In (n, t) l -> In (n, t') l -> t = t'.
Proof.
  induction l as [|[m u] l IH]; intros n t t' N I1 I2; [destruct I1|]. cbn [map fst] in N. apply NoDup_cons_iff in N as [N1 N2]. destruct I1 as [E1|I1], I2 as [E2|I2].
  - congruence.
  - injection E1 as -> ->. contradict N1. apply in_map_iff. exists (n, t'). auto.
  - injection E2 as -> ->. contradict N1. apply in_map_iff. exists (n, t). auto.
  - eauto.
Qed.
Lemma written_last : forall (l : list (str * T)) (s : str -> option T) n t, (forall t', In (n, t') l -> t' = t) -> In (n, t) l \/ s n = Some t -> fold_left (fun s f => write s (fst f) (snd f)) l s n = Some t.
Proof.
  induction l as [|[m u] l IH]; intros s n t F H; cbn [fold_left fst snd]; [destruct H as [[]|H]; exact H|]. apply IH; [intros t' I; apply F; now right|]. unfold write at 1. destruct (list_eq_dec ascii_dec n m) as [->|N].
  - right. f_equal. apply F. now left.
  - destruct H as [[E|I]|H]; auto. injection E as -> ->. contradiction.
Qed.
Lemma filters_read : forall id (s : str -> option T) (ks : list T) k n, length ks = n -> (forall name t, In (name, t) (combine (map (filter_name id) (seq k n)) ks) -> s name = Some t) -> omapM (fun i => read s (filter_name id i)) (seq k n) = Ok ks.
Proof.
  intros id s ks k n L. revert ks k L. induction n as [|n IH]; intros [|w ks] k L H; try discriminate L; [reflexivity|]. cbn [seq omapM map combine] in *. unfold read at 1. rewrite (H _ w (or_introl eq_refl)). cbn [obind]. rewrite (IH ks); [reflexivity|cbn in L; lia|]. intros. apply H. now right.
Qed.
Lemma loaded_ok : forall id v p p0 (s : str -> option T), fit v p -> (forall name t, In (name, t) (entries id v p) -> s name = Some t) -> exists p', loaded id v s p0 = Ok p' /\ alike v p p'.
Proof.
  intros id v p p0 s (_ & F & _) H. unfold loaded, entries, alike in *.
  assert (Hb : ModelFile_Model.use_bias v = true -> read s (bias_name id) = Ok (biases p)). { intros E. unfold read. rewrite (H (bias_name id) (biases p)); [reflexivity|]. apply in_or_app. right. rewrite E. now left. }
  destruct (ModelFile_Model.node_type v) eqn:Et.
  2: { destruct (F eq_refl) as [L _]. unfold filter_ids in *. rewrite (filters_read id s (kernels p) 0 (N.to_nat (ModelFile_Model.filters v)) L) by (intros; apply H; apply in_or_app; now left). cbn [obind].
       destruct (ModelFile_Model.use_bias v); [rewrite Hb by reflexivity; cbn [obind]|]; eexists; (split; [reflexivity|]); repeat split; intros; try discriminate; reflexivity. }
  1: { unfold read at 1. rewrite (H (full_name id) (weights p)) by now left. cbn [obind]. destruct (ModelFile_Model.use_bias v); [rewrite Hb by reflexivity; cbn [obind]|]; eexists; (split; [reflexivity|]); repeat split; intros; try discriminate; reflexivity. }
  all: cbn [obind]; destruct (ModelFile_Model.use_bias v); [rewrite Hb by reflexivity; cbn [obind]|]; eexists; (split; [reflexivity|]); repeat split; intros; try discriminate; reflexivity.
Qed.

(** ** All of them *)
Section All.
Context (d : dsl) (ps : nat -> params) (F : all_fit d ps).
Definition entries_at (id : nat) : list (str * T) := match ModelFile_Model.vertex_at d id with Ok v => entries id v (ps id) | _ => [] end.
Lemma save_all_ok : forall calls (s : str -> option T), (forall id, In id calls -> exists v, ModelFile_Model.vertex_at d id = Ok v) ->
  save_all d ps calls s = Ok (fold_left (fun s f => write s (fst f) (snd f)) (flat_map entries_at calls) s).
Proof.
  induction calls as [|id calls IH]; intros s H; [reflexivity|]. cbn [save_all flat_map]. destruct (H id (or_introl eq_refl)) as [v E]. unfold entries_at at 1. rewrite E. cbn [obind]. rewrite (written_ok id v (ps id) (F id v E)). cbn [obind].
  rewrite fold_left_app. apply IH. intros. apply H. now right.
Qed.
Lemma entry_of : forall id id' v v' n t t', ModelFile_Model.vertex_at d id = Ok v -> ModelFile_Model.vertex_at d id' = Ok v' -> In (n, t) (entries id v (ps id)) -> In (n, t') (entries id' v' (ps id')) -> t = t'.
Proof.
  intros id id' v v' n t t' E E' I I'.
  assert (N : In n (ModelFile_Model.files_of id v)) by (rewrite <- (entries_names id v (ps id) (F id v E)); apply in_map_iff; exists (n, t); auto).
  assert (N' : In n (ModelFile_Model.files_of id' v')) by (rewrite <- (entries_names id' v' (ps id') (F id' v' E')); apply in_map_iff; exists (n, t'); auto).
  destruct (ModelFile_Props.files_start _ _ _ N) as [x Ex]. destruct (ModelFile_Props.files_start _ _ _ N') as [y Ey]. rewrite Ex in Ey.
  apply ModelFile_Props.id_end in Ey as [Ei _]; [|reflexivity|reflexivity]. subst id'. rewrite E in E'. injection E' as <-. apply (unique_entry (entries id v (ps id)) n); [|exact I|exact I'].
  rewrite (entries_names id v (ps id) (F id v E)). pose proof (ModelFile_Props.layer_files_distinct d) as ND. unfold ModelFile_Model.knowledge_files in ND.
  assert (J : In (id, v) (combine (seq 1 (length (ModelFile_Model.vertices d))) (ModelFile_Model.vertices d))).
  { apply ModelFile_Proofs.vertex_at_ok in E as [R E]. apply (Net_Flow.nth_combine _ _ (id - 1)); [|exact E]. rewrite nth_error_nth' with (d := 0) by (rewrite seq_length; lia). rewrite seq_nth by lia. f_equal. lia. }
  clear - ND J. revert ND J. generalize (combine (seq 1 (length (ModelFile_Model.vertices d))) (ModelFile_Model.vertices d)). intros l ND J. induction l as [|[i w] l IH]; [destruct J|]. cbn [map concat] in ND.
  destruct J as [J|J]; [injection J as -> ->; now apply NoDup_parts in ND|]. apply IH; [|exact J]. now apply NoDup_parts in ND.
Qed.
Lemma saved_entries : forall calls (s : str -> option T) id v n t, (forall id, In id calls -> exists v, ModelFile_Model.vertex_at d id = Ok v) -> In id calls -> ModelFile_Model.vertex_at d id = Ok v -> In (n, t) (entries id v (ps id)) ->
  fold_left (fun s f => write s (fst f) (snd f)) (flat_map entries_at calls) s n = Some t.
Proof.
  intros calls s id v n t H I E J. apply written_last.
  - intros t' K. apply in_flat_map in K as (id' & I' & K). destruct (H id' I') as [v' E']. unfold entries_at in K. rewrite E' in K. exact (entry_of id' id v' v n t' t E' E K J).
  - left. apply in_flat_map. exists id. split; [exact I|]. unfold entries_at. now rewrite E.
Qed.
Lemma load_all_ok : forall calls (s : str -> option T) ps0, (forall id, In id calls -> exists v, ModelFile_Model.vertex_at d id = Ok v) ->
  (forall id v n t, In id calls -> ModelFile_Model.vertex_at d id = Ok v -> In (n, t) (entries id v (ps id)) -> s n = Some t) ->
  exists ps', load_all d s calls ps0 = Ok ps' /\ forall id v, ModelFile_Model.vertex_at d id = Ok v -> In id calls \/ alike v (ps id) (ps0 id) -> alike v (ps id) (ps' id).
Proof.
  induction calls as [|a calls IH]; intros s ps0 H R; cbn [load_all]; [exists ps0; split; [reflexivity|]; intros id v _ [[]|A]; exact A|].
  destruct (H a (or_introl eq_refl)) as [w Ew]. rewrite Ew. cbn [obind]. destruct (loaded_ok a w (ps a) (ps0 a) s (F a w Ew)) as (p' & Ep & Ap); [intros name t I; apply (R a w name t); [now left|exact Ew|exact I]|]. rewrite Ep. cbn [obind].
  destruct (IH s (set_at ps0 a p')) as (ps' & E' & A'); [intros; apply H; now right|intros id v n t I; apply R; now right|]. exists ps'. split; [exact E'|]. intros id v Ev Q. apply A'; [exact Ev|]. unfold set_at. destruct (Nat.eqb_spec id a) as [->|N].
  - right. rewrite Ew in Ev. injection Ev as <-. exact Ap.
  - destruct Q as [[->|I]|Q]; [contradiction|now left|now right].
Qed.
End All.

(** ** The network *)
(** Whatever was done with a network before, saving it and loading it into a network of the same description, with any weights, gives a network that computes the
    same from every record, whatever is in the folder besides. *)
(** Partial, C103: in exact arithmetic; no vertex but the outputs is without successor. *)
Theorem knowledge_restored_partial : forall cs o r rb l d net, ModelFile_Spec.joins_something cs -> ModelFile_Model.run cs (ModelFile_Model.new_dsl o r rb l) = Ok d -> ModelFile_Model.build d = Ok net ->
  outputs_end d -> ends_are_outputs d ->
  exists fuel0, forall fuel actions ps ps0 (s : str -> option T), fuel0 <= fuel -> all_fit d ps ->
  exists s' ps', save_network d net fuel (history (network d net) fuel actions built) ps s = Ok s' /\ load_network d net fuel built s' ps0 = Ok ps' /\
  forall random training given st, predict (network d net) (forward_at d ps' random training) fuel given st = predict (network d net) (forward_at d ps random training) fuel given st.
Proof.
  intros cs o r rb l d net J Rn Bd OE EO. destruct (ModelFile_Props.program_ok _ _ _ _ _ _ J Rn) as [D HI].
  destruct (every_layer_is_saved_and_loaded_partial (network d net) (network_well_formed _ d net D HI Bd) (network_outputs _ d net D HI Bd OE) (network_ends _ d net D HI Bd EO)) as [fuel0 P]. exists fuel0.
  intros fuel actions ps ps0 s Hf F.
  assert (S1 : forall id, In id (snd (act (network d net) fuel Save (history (network d net) fuel actions built))) <-> node (network d net) id) by (intros id; exact (proj1 (P fuel actions id Hf))).
  assert (L1 : forall id, In id (snd (act (network d net) fuel Load built)) <-> node (network d net) id) by (intros id; exact (proj2 (P fuel [] id Hf))).
  unfold save_network, load_network. revert S1 L1. generalize (snd (act (network d net) fuel Save (history (network d net) fuel actions built))) (snd (act (network d net) fuel Load built)). intros saves loads S1 L1.
  assert (VS : forall id, In id saves -> exists v, ModelFile_Model.vertex_at d id = Ok v) by (intros id I; apply (node_vertex _ d net D HI Bd); now apply S1).
  assert (VL : forall id, In id loads -> exists v, ModelFile_Model.vertex_at d id = Ok v) by (intros id I; apply (node_vertex _ d net D HI Bd); now apply L1).
  eexists. rewrite (save_all_ok d ps F saves s VS).
  destruct (load_all_ok d ps F loads (fold_left (fun s f => write s (fst f) (snd f)) (flat_map (entries_at d ps) saves) s) ps0 VL) as (ps' & E & A).
  { intros id v n t I Ev K. apply (saved_entries d ps F saves s id v n t VS); [apply S1; now apply L1|exact Ev|exact K]. }
  exists ps'. split; [reflexivity|]. split; [exact E|]. intros random training given st. f_equal. extensionality id. extensionality xs. unfold forward_at. destruct (ModelFile_Model.vertex_at d id) as [v| |] eqn:Ev; [|reflexivity|reflexivity]. cbn [obind].
  symmetry. apply alike_forward. apply A; [exact Ev|]. left. apply L1. apply (node_vertex _ d net D HI Bd). eauto.
Qed.
Print Assumptions knowledge_restored_partial.

(** Loaded from its own files, in another run of the program, the network predicts what the one that was saved predicts. *)
(** Partial, C103: as above; the network was described depth first, as in C55. *)
Theorem saved_network_predicts_the_same_partial : forall cs o r rb l d net, ModelFile_Spec.joins_something cs -> ModelFile_Props.machine_program cs r rb -> Forall ModelFile_Spec.has_filters cs -> ModelFile_Spec.depth_first cs -> ModelFile_Spec.joins_in_order cs ->
  ModelFile_Model.run cs (ModelFile_Model.new_dsl o r rb l) = Ok d -> ModelFile_Model.build d = Ok net -> outputs_end d -> ends_are_outputs d ->
  exists fuel0, forall fuel actions ps ps0 (s : str -> option T) in_range, fuel0 <= fuel -> all_fit d ps ->
  exists s' d' net' ps', save_network d net fuel (history (network d net) fuel actions built) ps s = Ok s' /\
    ModelFile_Model.load_config (ModelFile_Model.config_file in_range net) = Ok d' /\ ModelFile_Model.build d' = Ok net' /\ load_network d' net' fuel built s' ps0 = Ok ps' /\
    forall random training given st, predict (network d' net') (forward_at d' ps' random training) fuel given st = predict (network d net) (forward_at d ps random training) fuel given st.
Proof.
  intros cs o r rb l d net J M HF DF JO Rn Bd OE EO. destruct (knowledge_restored_partial cs o r rb l d net J Rn Bd OE EO) as [fuel0 P]. exists fuel0. intros fuel actions ps ps0 s in_range Hf F.
  destruct (P fuel actions ps ps0 s Hf F) as (s' & ps' & E1 & E2 & E3). exists s', d, net, ps'. split; [exact E1|]. split; [|auto]. exact (ModelFile_Props.saved_model_reloads_partial cs o r rb l d net in_range J M HF DF JO Rn Bd).
Qed.
Print Assumptions saved_network_predicts_the_same_partial.

(** Two branches that are joined: [ModelFile_Props.ex_reloads] has the other hypotheses. *)
Example ex_ends : exists d net, ModelFile_Model.run ModelFile_Props.ex_branches (ModelFile_Model.new_dsl ModelFile_Model.adam 5 5 ModelFile_Model.categoricalCrossEntropy) = Ok d /\ ModelFile_Model.build d = Ok net /\ outputs_end d /\ ends_are_outputs d.
Proof.
  destruct ModelFile_Props.ex_reloads as (_ & _ & _ & _ & _ & d & Rn & net & Bd). exists d, net. split; [exact Rn|]. split; [exact Bd|]. clear Bd net.
  match type of Rn with ?x = _ => eassert (H : x = Ok _) by (cbv -[IZR NumText_Model.to_float Rdiv]; reflexivity) end. rewrite H in Rn. injection Rn as <-.
  split; intros v I; cbn [ModelFile_Model.vertices In] in I; repeat (destruct I as [<-|I]; [cbn; intros E; first [reflexivity|discriminate]|]); destruct I.
Qed.
