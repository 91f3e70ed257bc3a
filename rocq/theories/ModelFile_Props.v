(** C55: a saved description is loaded again.  C80: the inputs of a concatenation are in the order given. *)
From Coq Require Import Ascii String List Bool Arith NArith ZArith Reals Lia Lra Permutation.
From Flocq Require Import Core.
From Verif Require Import Chars Outcome Delimited_Model NumText_Model NumText_Proofs ModelFile_Model ModelFile_Spec ModelFile_Proofs ModelFile_Text ModelFile_Load ModelFile_Reload ModelFile_Dfs ModelFile_Order.
Import ListNotations.
Open Scope nat_scope.

Lemma run_rooted : forall cs done d d', joins_something cs -> described (parents_of done) d -> (forall i v, nth_error (vertices d) i = Some v -> nth i (parents_of done) [] = [] -> acceptsInput v = true) ->
  run cs d = Ok d' -> forall i v, nth_error (vertices d') i = Some v -> nth i (parents_of (done ++ cs)) [] = [] -> acceptsInput v = true.
Proof.
  induction cs as [|c cs IH]; intros done d d' J D HI H; cbn [run] in H; [injection H as <-; rewrite app_nil_r; exact HI|].
  destruct (run_call c d) as [d1| |] eqn:E; cbn [obind] in H; try discriminate. replace (done ++ c :: cs) with ((done ++ [c]) ++ cs) by now rewrite <- app_assoc.
  assert (R1 : run [c] d = Ok d1) by (cbn [run]; rewrite E; reflexivity). apply (IH _ d1).
  - intros I. apply J. now right.
  - exact (run_described _ _ _ _ D R1).
  - assert (DEC : is_change c \/ ~ is_change c) by (destruct c; cbn; auto). destruct DEC as [Y|N].
    + destruct c as [| | | | |s id]; try contradiction Y. rewrite parents_of_app. cbn [parents_of]. rewrite app_nil_r. cbn [run_call] in E. destruct (described_change _ _ _ _ _ D E) as (_ & x & x' & X1 & X2 & X3 & _).
      intros i v Hv Z. rewrite X3, nth_update in Hv. destruct (Nat.eqb_spec i (id - 1)) as [Ei|Ei]; [|exact (HI _ _ Hv Z)]. rewrite Ei, X1 in Hv. cbn [option_map] in Hv. injection Hv as <-.
      destruct (core_set _ _ _ X2) as [C _]. unfold core in C. injection C as _ _ C _ _ _ _ _. rewrite C. apply (HI (id - 1)); [exact X1|]. now rewrite <- Ei.
    + rewrite parents_of_app, (parents_of_one _ N). destruct (run_call_adds _ _ _ E N) as (x & -> & F & Ex & _ & _ & A & _). destruct (added_vertices x (adds c) d F Ex) as (L & _ & V1 & V2 & _). pose proof (de_count _ _ D) as DC.
      intros i v Hv Z. destruct (Nat.eq_dec i (length (vertices d))) as [->|Ni].
      * rewrite V2 in Hv. injection Hv as <-. rewrite app_nth2, DC, Nat.sub_diag in Z by lia. cbn [nth] in Z. apply A; [exact Z|]. intros ->. apply J. now left.
      * assert (i < length (vertices d)) by (assert (i < length (vertices (added x (adds c) d))) by (apply nth_error_Some; congruence); lia). rewrite V1 in Hv by assumption.
        destruct (nth_error (vertices d) i) as [y|] eqn:Ey; [|discriminate]. cbn [option_map] in Hv. injection Hv as <-. rewrite app_nth1 in Z by lia.
        pose proof (core_edges (edges y ++ repeat (next_id d) (count_occ Nat.eq_dec (adds c) (S i))) y) as C. unfold core in C. injection C as _ _ C _ _ _ _ _. rewrite C. exact (HI _ _ Ey Z).
  - exact H.
Qed.
Lemma program_ok : forall cs o r b l d, joins_something cs -> run cs (new_dsl o r b l) = Ok d ->
  described (parents_of cs) d /\ (forall i v, nth_error (vertices d) i = Some v -> nth i (parents_of cs) [] = [] -> acceptsInput v = true).
Proof.
  intros cs o r b l d J H. pose proof (described_new o r b l) as D0. split; [exact (run_described cs [] _ _ D0 H)|]. apply (run_rooted cs [] _ _ J D0); [|exact H]. intros i v Hv. destruct i; discriminate.
Qed.
Lemma run_header : forall cs d d', run cs d = Ok d' -> (optimizer d', learningRate d', biasLearningRate d', loss d') = (optimizer d, learningRate d, biasLearningRate d, loss d).
Proof.
  induction cs as [|c cs IH]; intros d d' H; cbn [run] in H; [now injection H as <-|]. destruct (run_call c d) as [d1| |] eqn:E; cbn [obind] in H; try discriminate. rewrite (IH _ _ H).
  assert (DEC : is_change c \/ ~ is_change c) by (destruct c; cbn; auto). destruct DEC as [Y|N].
  - destruct c as [| | | | |s id]; try contradiction Y. cbn [run_call] in E. unfold change in E. destruct (vertex_at d id) as [v| |]; cbn [obind] in E; try discriminate. destruct (set_vertex s v); cbn [obind] in E; try discriminate. now injection E as <-.
  - destruct (run_call_adds _ _ _ E N) as (x & -> & F & Ex & _). now destruct (added_vertices x (adds c) d F Ex) as (_ & O & _).
Qed.
Lemma edges_in_graph : forall ps d, described ps d -> forall id x, In x (edges_at d id) -> 1 <= x <= length (vertices d).
Proof.
  intros ps d D id x H. unfold edges_at in H. destruct (nth_error (vertices d) (id - 1)) as [v|] eqn:E; [|contradiction H]. rewrite (de_edges _ _ D _ _ E) in H. now apply in_adopted in H.
Qed.

(** ** What is saved *)
(** Building a network a program describes ends, and only a layer that cannot be made stops it. *)
Theorem build_succeeds : forall cs o r b l d, run cs (new_dsl o r b l) = Ok d ->
  build d <> UB /\ ((forall v, In v (vertices d) -> construct v = Ok tt) -> exists net, build d = Ok net).
Proof.
  intros cs o r b l d H. pose proof (run_described cs [] _ _ (described_new o r b l) H) as D. cbn [app] in D. destruct (build_ends _ _ D) as [U E]. split; [exact U|]. intros C. apply E. now apply Forall_forall.
Qed.
Print Assumptions build_succeeds.
(** The saved records are the four settings, then one for each vertex and one for each vertex that feeds
    others, each with its number, whatever the order of creation. *)
Theorem saved_records_complete : forall cs o r b l d net, joins_something cs -> run cs (new_dsl o r b l) = Ok d -> build d = Ok net ->
  firstn 4 (records net) = [[lit "optimizer"; optimizerTypeToString o]; [lit "learningRate"; asString_float r]; [lit "biasLearningRate"; asString_float b]; [lit "loss"; lossTypeToString l]] /\
  (forall id v, 1 <= id -> nth_error (vertices d) (id - 1) = Some v -> In (vertex_record id v) (skipn 4 (records net)) /\ (edges v <> [] -> In (edge_record id (edges v)) (skipn 4 (records net)))) /\
  length (skipn 4 (records net)) = length (vertices d) + length (filter (fun v => match edges v with [] => false | _ => true end) (vertices d)).
Proof.
  intros cs o r b l d net J H B. destruct (program_ok _ _ _ _ _ _ J H) as [D HI]. pose proof (run_header _ _ _ H) as HH. cbn [new_dsl optimizer learningRate biasLearningRate loss] in HH. injection HH as H1 H2 H3 H4.
  destruct (build_rows _ _ _ D HI B) as ((rows & R & P) & _ & _). rewrite R. unfold header. rewrite H1, H2, H3, H4. split; [reflexivity|]. cbn [app skipn]. split.
  - intros id v Hid Hv. assert (L : id - 1 < length (vertices d)) by (apply nth_error_Some; congruence). split.
    + apply in_map_iff. exists (Vrow id). split; [cbn [row_text]; now rewrite Hv|]. eapply Permutation_in; [symmetry; exact P|]. apply in_or_app. left. apply in_map. apply in_seq. lia.
    + intros E. assert (EA : edges_at d id = edges v) by (unfold edges_at; now rewrite Hv). apply in_map_iff. exists (Erow id). split; [cbn [row_text]; now rewrite EA|]. eapply Permutation_in; [symmetry; exact P|]. apply in_or_app. right. apply in_map.
      apply filter_In. split; [apply in_seq; lia|]. unfold feeding. rewrite EA. now destruct (edges v).
  - rewrite map_length. rewrite (Permutation_length P), app_length, !map_length, seq_length. f_equal. clear. unfold feeding, edges_at. induction (vertices d) as [|v vs IH] using rev_ind; [reflexivity|].
    rewrite app_length, seq_app, !filter_app, !app_length. cbn [length seq]. f_equal.
    + rewrite <- IH. f_equal. apply filter_ext_in. intros x Hx%in_seq. rewrite nth_error_app1 by lia. reflexivity.
    + cbn [filter]. rewrite nth_error_app2 by lia. replace (1 + length vs - 1 - length vs) with 0 by lia. cbn [nth_error]. now destruct (edges v).
Qed.
Print Assumptions saved_records_complete.

(** ** What is loaded *)
Definition machine_program (cs : list call) (rate bias_rate : R) : Prop :=
  Forall machine_values cs /\ fits15 rate /\ fits15 bias_rate /\ (N.of_nat (length (parents_of cs)) < 2 ^ 32)%N.
Lemma loads : forall cs o r b l d net in_range, joins_something cs -> machine_program cs r b -> run cs (new_dsl o r b l) = Ok d -> build d = Ok net ->
  load_config (config_file in_range net) = reload d.
Proof.
  intros cs o r b l d net in_range J (M & Fr & Fb & Hn) H B. destruct (program_ok _ _ _ _ _ _ J H) as [D HI]. pose proof (run_machine _ _ _ _ _ _ M H) as HM.
  pose proof (run_header _ _ _ H) as HH. cbn [new_dsl optimizer learningRate biasLearningRate loss] in HH. injection HH as H1 H2 H3 H4.
  destruct (build_rows _ _ _ D HI B) as ((rows & R & P) & _ & HC). unfold load_config, config_file. rewrite file_read_back.
  - cbn [obind]. rewrite R. rewrite <- H2 in Fr. rewrite <- H3 in Fb. rewrite (de_count _ _ D) in Hn. exact (load_is_reload d rows HM Fr Fb Hn (edges_in_graph _ _ D) (de_heads _ _ D) P).
  - rewrite R. apply Forall_app. split; [apply header_clean|]. apply Forall_forall. intros x Hx. apply in_map_iff in Hx as (w & <- & Hw). apply row_clean.
    eapply Permutation_in in Hw; [|exact P]. apply in_app_or in Hw as [Hw|Hw]; apply in_map_iff in Hw as (i & <- & Hi); [|apply filter_In in Hi as [Hi _]]; apply in_seq in Hi; cbn [in_graph]; lia.
Qed.
(** Programs that add vertices depth first, and name the parents of a concatenation in order, get back the very
    description they saved: every layer with its number, its settings and its edges. *)
Theorem saved_model_reloads_partial : forall cs o r b l d net in_range, joins_something cs -> machine_program cs r b -> Forall has_filters cs -> depth_first cs -> joins_in_order cs ->
  run cs (new_dsl o r b l) = Ok d -> build d = Ok net -> load_config (config_file in_range net) = Ok d.
Proof.
  intros cs o r b l d net in_range J M HF DF JO H B. rewrite (loads cs o r b l d net in_range J M H B). destruct (program_ok _ _ _ _ _ _ J H) as [D HI]. destruct (build_rows _ _ _ D HI B) as (_ & _ & HC).
  apply (reload_same cs d D); auto; [exact (run_flags _ _ _ _ _ _ HF H)|exact (run_kernels _ _ _ _ _ _ HF H)].
Qed.
Print Assumptions saved_model_reloads_partial.

Definition dense (p : nat) (i o : N) := Add_layer p (1, i, 1)%N (1, o, 1)%N full false relu.
Ltac built H := let U := fresh in let E := fresh in destruct (build_succeeds _ _ _ _ _ _ H) as [U E]; apply E; let v := fresh in let I := fresh in intros v I; cbn [vertices In] in I; repeat (destruct I as [<-|I]; [reflexivity|]); destruct I.
Ltac no_empty := unfold joins_something; intros E; unfold dense in E; repeat (destruct E as [E|E]; [discriminate E|]); destruct E.
(** Two branches that are joined again. *)
Definition ex_branches : list call :=
  [Add_input full (1, 4, 1)%N (1, 8, 1)%N false relu; dense 1 8 5; Change (Use_bias true) 2; dense 1 8 6; Add_concatenated [2; 3]; Change (Bits 16) 3; Add_layer 4 (1, 11, 1)%N (1, 2, 1)%N full true softmax].
Example ex_reloads : joins_something ex_branches /\ machine_program ex_branches 5 5 /\ Forall has_filters ex_branches /\ depth_first ex_branches /\ joins_in_order ex_branches /\
  exists d, run ex_branches (new_dsl adam 5 5 categoricalCrossEntropy) = Ok d /\ exists net, build d = Ok net.
Proof.
  split; [|split; [|split; [|split; [|split]]]].
  - no_empty.
  - split; [|split; [apply fits_default|split; [apply fits_default|cbn; lia]]]. repeat constructor.
  - repeat constructor.
  - intros p v L w Hw. destruct v as [|[|[|[|[|[|v]]]]]]; cbn in L; try discriminate L; try (injection L as <-); try lia.
    + assert (w = 2) as -> by lia. apply descends_step with (p := 1); [constructor|reflexivity].
    + unfold last_parent in L. cbn in L. destruct v; discriminate.
  - intros ps Hp. cbn in Hp. repeat (destruct Hp as [Hp|Hp]; [try discriminate|]); [|contradiction]. injection Hp as <-. split.
    + intros i j a b L Hi Hj. destruct i as [|[|i]], j as [|[|j]]; try lia; cbn in Hi, Hj; try discriminate; try (destruct i; discriminate); try (destruct j; discriminate). injection Hi as <-. injection Hj as <-. lia.
    + intros i u l L Hu Hl. cbn in L. assert (i = 0) as -> by lia. cbn in Hu, Hl. injection Hu as <-. injection Hl as <-. intros X. inversion X as [|q w X1 X2]; subst. cbn in X2. injection X2 as <-. inversion X1 as [|q w X3 X4]; subst. discriminate.
  - match goal with |- exists d, ?x = _ /\ _ => eassert (H : x = Ok _) by (cbv -[IZR to_float Rdiv]; reflexivity) end. eexists. split; [exact H|]. built H.
Qed.

(** ** What is not *)
Definition reloaded (cs : list call) (bad : dsl -> dsl -> Prop) : Prop :=
  joins_something cs /\ Forall has_filters cs /\ forall o r b l in_range, fits15 r -> fits15 b ->
    exists d net d', run cs (new_dsl o r b l) = Ok d /\ build d = Ok net /\ load_config (config_file in_range net) = Ok d' /\ bad d d'.
Ltac refute := split; [solve [no_empty]|]; split; [repeat constructor|]; intros o r b l in_range Fr Fb;
  match goal with |- exists d net d', run ?cs _ = _ /\ _ =>
    let H := fresh in
    eassert (H : run cs (new_dsl o r b l) = Ok _) by (cbv -[IZR to_float Rdiv]; reflexivity);
    match type of H with _ = Ok ?d => exists d;
      let net := fresh "net" in let B := fresh in
      assert (B : exists net, build d = Ok net) by (built H); destruct B as [net B]; exists net;
      rewrite (loads cs o r b l d net in_range); [|solve [no_empty]|split; [repeat constructor|split; [exact Fr|split; [exact Fb|cbn; lia]]]|exact H|exact B];
      eexists; split; [exact H|]; split; [exact B|]; split; [cbv -[IZR to_float Rdiv]; reflexivity|]
    end
  end.
Definition shapes (d : dsl) := map (fun v => (inputShapes v, outputShape v)) (vertices d).

(** Layer after layer instead of branch after branch: the layers are numbered anew, so the file with the weights
    of one is read into another. *)
Theorem layer_by_layer_refuted : exists cs, reloaded cs (fun d d' =>
  nth_error (shapes d) 2 = Some ([(1, 8, 1)], (1, 6, 1))%N /\ nth_error (shapes d') 2 = Some ([(1, 5, 1)], (1, 7, 1))%N).
Proof.
  exists [Add_input full (1, 4, 1)%N (1, 8, 1)%N false relu; dense 1 8 5; dense 1 8 6; dense 2 5 7; dense 3 6 2]. refute. split; reflexivity.
Qed.
Print Assumptions layer_by_layer_refuted.
(** Two inputs, then their layers: the second input is given the number of a layer. *)
Theorem inputs_first_refuted : exists cs, reloaded cs (fun d d' => inputReceptors d = [1; 2] /\ inputReceptors d' = [1; 3]).
Proof.
  exists [Add_input full (1, 4, 1)%N (1, 8, 1)%N false relu; Add_input full (1, 3, 1)%N (1, 8, 1)%N false relu; dense 1 8 5; dense 2 8 6; Add_concatenated [3; 4]]. refute. split; reflexivity.
Qed.
Print Assumptions inputs_first_refuted.
(** A connection past a layer: the concatenation, and what follows, is made twice. *)
Theorem skip_connection_refuted : exists cs, reloaded cs (fun d d' => length (vertices d) = 4 /\ length (vertices d') = 6).
Proof.
  exists [Add_input full (1, 4, 1)%N (1, 8, 1)%N false relu; dense 1 8 5; Add_concatenated [1; 2]; dense 3 13 2]. refute. split; reflexivity.
Qed.
Print Assumptions skip_connection_refuted.
(** The parents of a concatenation not in order of creation: they are swapped. *)
Theorem joins_reordered_refuted : exists cs, reloaded cs (fun d d' =>
  nth_error (shapes d) 2 = Some ([(1, 7, 1); (1, 8, 1)], (1, 15, 1))%N /\ nth_error (shapes d') 2 = Some ([(1, 8, 1); (1, 7, 1)], (1, 15, 1))%N).
Proof.
  exists [Add_input full (1, 4, 1)%N (1, 8, 1)%N false relu; Add_input full (1, 3, 1)%N (1, 7, 1)%N false relu; Add_concatenated [2; 1]]. refute. split; reflexivity.
Qed.
Print Assumptions joins_reordered_refuted.

(** ** Rates *)
Definition with_rates (d : dsl) (r b : R) : dsl := {| optimizer := optimizer d; learningRate := r; biasLearningRate := b; loss := loss d; vertices := vertices d; inputReceptors := inputReceptors d |}.
Lemma run_rates : forall cs d d' r b, run cs d = Ok d' -> run cs (with_rates d r b) = Ok (with_rates d' r b).
Proof.
  assert (AE : forall pl w d r b, fold_left (fun d' p => add_edge p w d') pl (with_rates d r b) = with_rates (fold_left (fun d' p => add_edge p w d') pl d) r b).
  { induction pl as [|p pl IH]; intros w d r b; [reflexivity|]. cbn [fold_left]. rewrite <- IH. reflexivity. }
  assert (VE : forall d r b id, vertex_at (with_rates d r b) id = vertex_at d id) by reflexivity.
  assert (ONE : forall c d d' r b, run_call c d = Ok d' -> run_call c (with_rates d r b) = Ok (with_rates d' r b)).
  { intros c d d' r b H. destruct c as [t i o f a|t i n k f a|p i o t f a|p n k t f a|ps|s id]; cbn [run_call] in *.
    - unfold add_input in *. destruct (new_plain _ _ _ _ _ _); cbn [obind] in *; try discriminate. now injection H as <-.
    - unfold add_input_filters in *. destruct (new_filters _ _ _ _ _ _ _); cbn [obind] in *; try discriminate. now injection H as <-.
    - unfold add_layer in *. rewrite VE. destruct (vertex_at d p); cbn [obind] in *; try discriminate. destruct (new_plain _ _ _ _ _ _); cbn [obind] in *; try discriminate. now injection H as <-.
    - unfold add_filters in *. rewrite VE. destruct (vertex_at d p); cbn [obind] in *; try discriminate. destruct (new_filters _ _ _ _ _ _ _); cbn [obind] in *; try discriminate. now injection H as <-.
    - unfold add_concatenated in *. assert (OM : forall l, omapM (vertex_at (with_rates d r b)) l = omapM (vertex_at d) l) by reflexivity. rewrite OM. destruct (omapM (vertex_at d) ps) as [vs| |]; cbn [obind] in *; try discriminate.
      injection H as <-. cbv zeta. rewrite <- AE. reflexivity.
    - unfold change in *. rewrite VE. destruct (vertex_at d id) as [v| |]; cbn [obind] in *; try discriminate. destruct (set_vertex s v); cbn [obind] in *; try discriminate. now injection H as <-. }
  induction cs as [|c cs IH]; intros d d' r b H; cbn [run] in *; [now injection H as <-|]. destruct (run_call c d) as [d1| |] eqn:E; cbn [obind] in H; try discriminate. rewrite (ONE _ _ _ r b E). cbn [obind]. now apply IH.
Qed.
(** A rate below half of 10^-15 comes back as zero. *)
Theorem tiny_rates_refuted : forall cs o r b l d net in_range, joins_something cs -> machine_program cs 0 b -> Forall has_filters cs -> depth_first cs -> joins_in_order cs -> (Rabs r < / 2 * / 10 ^ 15)%R ->
  run cs (new_dsl o r b l) = Ok d -> build d = Ok net -> exists d', load_config (config_file in_range net) = Ok d' /\ learningRate d' = 0%R /\ vertices d' = vertices d.
Proof.
  intros cs o r b l d net in_range J M HF DF JO Hr H B. exists (with_rates d 0 b).
  assert (H2 : run cs (new_dsl o 0 b l) = Ok (with_rates d 0 b)) by exact (run_rates _ _ _ 0%R b H). destruct (program_ok _ _ _ _ _ _ J H2) as [D HI]. destruct (program_ok _ _ _ _ _ _ J H) as [D1 HI1].
  pose proof (run_header _ _ _ H) as HH. cbn [new_dsl optimizer learningRate biasLearningRate loss] in HH. injection HH as E1 E2 E3 E4.
  destruct (build_rows _ _ _ D1 HI1 B) as ((rows & R & P) & _ & HC). split; [|now split]. unfold load_config, config_file. rewrite file_read_back.
  - cbn [obind]. rewrite R. change (row_text d) with (row_text (with_rates d 0 b)). pose proof M as (M1 & Fz & Fb & Hn). pose proof (run_machine _ _ _ _ _ _ M1 H2) as HM. rewrite (de_count _ _ D) in Hn.
    transitivity (load_records (header (with_rates d 0 b) ++ map (row_text (with_rates d 0 b)) rows)).
    + unfold header. rewrite E1, E2, E3, E4. cbn [with_rates optimizer learningRate biasLearningRate loss]. rewrite E1, E4. unfold load_records. cbv zeta. cbn [app nth skipn]. unfold named, vec_at. cbn [nth_error obind].
      destruct (seq_eqb (lit "optimizer") (lit "optimizer")); cbn [obind]; [|reflexivity]. rewrite optimizer_name. cbn [obind]. destruct (seq_eqb (lit "learningRate") (lit "learningRate")); cbn [obind]; [|reflexivity].
      rewrite (tiny_float_lost r Hr). rewrite (stof_fits 0 Fz). reflexivity.
    + rewrite (load_is_reload (with_rates d 0 b) rows HM Fz Fb Hn (edges_in_graph _ _ D) (de_heads _ _ D) P). apply (reload_same cs _ D); auto; [exact (run_flags _ _ _ _ _ _ HF H2)|exact (run_kernels _ _ _ _ _ _ HF H2)].
  - rewrite R. apply Forall_app. split; [apply header_clean|]. apply Forall_forall. intros x Hx. apply in_map_iff in Hx as (w & <- & Hw). apply row_clean.
    eapply Permutation_in in Hw; [|exact P]. apply in_app_or in Hw as [Hw|Hw]; apply in_map_iff in Hw as (i & <- & Hi); [|apply filter_In in Hi as [Hi _]]; apply in_seq in Hi; cbn [in_graph]; lia.
Qed.
Print Assumptions tiny_rates_refuted.
Example ex_tiny : (Rabs (/ 10 ^ 16) < / 2 * / 10 ^ 15)%R /\ machine_program ex_branches 0 5.
Proof.
  split.
  - rewrite Rabs_pos_eq by (left; apply Rinv_0_lt_compat; apply pow_lt; lra). rewrite <- Rinv_mult. apply Rinv_lt_contravar; [apply Rmult_lt_0_compat; [apply Rmult_lt_0_compat; [lra|]|]; apply pow_lt; lra|].
    replace (10 ^ 16)%R with (10 * 10 ^ 15)%R by (cbn [pow]; ring). apply Rmult_lt_compat_r; [apply pow_lt; lra|lra].
  - split; [|split; [apply fits_default|split; [apply fits_default|cbn; lia]]]. repeat constructor.
Qed.

(** ** Files of the layers *)
Lemma decimal_end : forall a b x y, Forall (fun c => isdigit c = true) a -> Forall (fun c => isdigit c = true) b ->
  match x with c :: _ => isdigit c = false | [] => True end -> match y with c :: _ => isdigit c = false | [] => True end -> a ++ x = b ++ y -> a = b /\ x = y.
Proof.
  induction a as [|c a IH]; intros [|c' b] x y Fa Fb Hx Hy E; cbn [app] in E.
  - now split.
  - subst x. inversion Fb; congruence.
  - subst y. inversion Fa; congruence.
  - injection E as -> E. inversion Fa; inversion Fb; subst. destruct (IH b x y) as [-> ->]; auto.
Qed.
Lemma id_end : forall a b x y, match x with c :: _ => isdigit c = false | [] => True end -> match y with c :: _ => isdigit c = false | [] => True end -> asString_id a ++ x = asString_id b ++ y -> a = b /\ x = y.
Proof.
  intros a b x y Hx Hy E. unfold asString_id in E. destruct (asString_uint_ok (N.of_nat a)) as [_ [A _]]. destruct (asString_uint_ok (N.of_nat b)) as [_ [B _]]. destruct (decimal_end _ _ _ _ A B Hx Hy E) as [E1 E2].
  apply asString_uint_inj in E1. split; [lia|exact E2].
Qed.
Lemma files_start : forall id v f, In f (files_of id v) -> exists x, f = asString_id id ++ "_"%char :: x.
Proof.
  intros id v f H. unfold files_of in H. apply in_app_or in H as [H|H].
  - destruct (node_type v); cbn in H; try contradiction; [destruct H as [<-|[]]; eexists; reflexivity|]. apply in_map_iff in H as (i & <- & _). eexists. reflexivity.
  - destruct (use_bias v); [|contradiction H]. destruct H as [<-|[]]. eexists. reflexivity.
Qed.
(** No two weights of a network are kept in one file. *)
Theorem layer_files_distinct : forall d, NoDup (knowledge_files d).
Proof.
  intros d. unfold knowledge_files.
  assert (ONE : forall id v, NoDup (files_of id v)).
  { intros id v. unfold files_of.
    assert (NB : forall l, NoDup l -> ~ In (asString_id id ++ lit "_bias.tensor") l -> NoDup (l ++ (if use_bias v then [asString_id id ++ lit "_bias.tensor"] else []))).
    { intros l N I. destruct (use_bias v); [|now rewrite app_nil_r]. eapply Permutation_NoDup; [apply Permutation_cons_append|]. now constructor. }
    apply NB.
    - destruct (node_type v); try constructor; try constructor; [intros []|]. apply FinFun.Injective_map_NoDup; [|apply seq_NoDup]. intros i j E. apply app_inv_head in E. apply app_inv_head in E. apply id_end in E; [tauto|reflexivity|reflexivity].
    - destruct (node_type v); cbn [In]; try tauto.
      + intros [E|[]]. apply app_inv_head in E. discriminate.
      + intros I. apply in_map_iff in I as (i & E & _). apply app_inv_head in E. discriminate. }
  assert (ALL : forall vs k, NoDup (concat (map (fun '(id, v) => files_of id v) (combine (seq k (length vs)) vs))) /\ forall f, In f (concat (map (fun '(id, v) => files_of id v) (combine (seq k (length vs)) vs))) -> exists id x, k <= id /\ f = asString_id id ++ "_"%char :: x).
  { induction vs as [|v vs IH]; intros k; cbn [length seq combine map concat]; [split; [constructor|intros f []]|]. destruct (IH (S k)) as [N S1]. split.
    - assert (G : forall l m, NoDup l -> NoDup m -> (forall f, In f l -> ~ In f m) -> @NoDup str (l ++ m)).
      { clear. induction l as [|a l IH]; intros m Nl Nm H; [exact Nm|]. inversion Nl; subst. cbn [app]. constructor; [|apply IH; auto; intros f If; apply H; now right]. intros I. apply in_app_or in I as [I|I]; [contradiction|]. apply (H a); [now left|exact I]. }
      apply G; [apply ONE|exact N|]. intros f If Im. destruct (files_start _ _ _ If) as [x Ex]. destruct (S1 _ Im) as (id & y & Hid & Ey). rewrite Ex in Ey. apply id_end in Ey as [E _]; [lia|reflexivity|reflexivity].
    - intros f If. apply in_app_or in If as [If|If]; [destruct (files_start _ _ _ If) as [x Ex]; exists k, x; split; [lia|exact Ex]|]. destruct (S1 _ If) as (id & x & Hid & Ex). exists id, x. split; [lia|exact Ex]. }
  apply ALL.
Qed.
Print Assumptions layer_files_distinct.

(** ** Order of the inputs of a concatenation *)
(** Inputs named in order of creation are concatenated in that order. *)
Theorem joined_inputs_in_order_partial : forall cs o r b l d net w, joins_something cs -> run cs (new_dsl o r b l) = Ok d -> build d = Ok net -> increasing (parents cs w) -> (forall p, In p (parents cs w) -> In p (inputReceptors d)) -> parents cs w <> [] ->
  arriving w (connections net) = parents cs w.
Proof.
  intros cs o r b l d net w J H B I Hp Ne. destruct (program_ok _ _ _ _ _ _ J H) as [D HI]. destruct w as [|i]; [now contradict Ne|]. cbn [parents] in *.
  assert (Hi : i < length (vertices d)). { rewrite <- (de_count _ _ D). destruct (Nat.lt_ge_cases i (length (parents_of cs))) as [|X]; [assumption|]. rewrite nth_overflow in Ne by exact X. now contradict Ne. }
  pose proof (inputs_in_order (parents_of cs) d net (S i) D) as G. replace (S i - 1) with i in G by lia. apply G; auto; [|lia]. intros u Hu. specialize (Hp _ Hu). rewrite (de_heads _ _ D) in Hp. now apply filter_In in Hp.
Qed.
Print Assumptions joined_inputs_in_order_partial.
Definition ex_inputs : list call := [Add_input full (1, 4, 1)%N (1, 8, 1)%N false relu; Add_input full (1, 3, 1)%N (1, 7, 1)%N false relu; Add_concatenated [1; 2]].
Example ex_joined : exists d, run ex_inputs (new_dsl adam 5 5 mse) = Ok d /\ (exists net, build d = Ok net) /\ increasing (parents ex_inputs 3) /\ (forall p, In p (parents ex_inputs 3) -> In p (inputReceptors d)) /\ parents ex_inputs 3 <> [] /\ joins_something ex_inputs.
Proof.
  match goal with |- exists d, ?x = _ /\ _ => eassert (H : x = Ok _) by (cbv -[IZR to_float Rdiv]; reflexivity) end. eexists. split; [exact H|]. split; [built H|]. split; [|split; [|split; [discriminate|solve [no_empty]]]].
  - intros i j a b L Hi Hj. destruct i as [|[|i]], j as [|[|j]]; try lia; cbn in Hi, Hj; try discriminate; try (destruct i; discriminate); try (destruct j; discriminate). injection Hi as <-. injection Hj as <-. lia.
  - cbn. tauto.
Qed.
(** In any other order they are not: the error for one input is cut out at the width of the other. *)
Theorem joined_out_of_order_refuted : exists cs, joins_something cs /\ forall o r b l, exists d net, run cs (new_dsl o r b l) = Ok d /\ build d = Ok net /\
  option_map inputShapes (nth_error (vertices d) 2) = Some [(1, 7, 1); (1, 8, 1)]%N /\ parents cs 3 = [2; 1] /\ arriving 3 (connections net) = [1; 2].
Proof.
  exists [Add_input full (1, 4, 1)%N (1, 8, 1)%N false relu; Add_input full (1, 3, 1)%N (1, 7, 1)%N false relu; Add_concatenated [2; 1]]. split; [solve [no_empty]|]. intros o r b l. eexists. eexists.
  split; [cbv -[IZR to_float Rdiv]; reflexivity|]. split; [cbv -[IZR to_float Rdiv vertex_record edge_record asString_float asString_id lit optimizerTypeToString lossTypeToString]; reflexivity|]. repeat split.
Qed.
Print Assumptions joined_out_of_order_refuted.
(** Nor in the order of creation, when one of them is a concatenation that was reached earlier. *)
Theorem joined_join_refuted : exists cs, joins_something cs /\ depth_first cs /\ forall o r b l, exists d net, run cs (new_dsl o r b l) = Ok d /\ build d = Ok net /\
  parents cs 6 = [3; 5] /\ arriving 6 (connections net) = [5; 3].
Proof.
  exists [Add_input full (1, 4, 1)%N (1, 8, 1)%N false relu; dense 1 8 2; dense 1 8 3; dense 1 8 4; Add_concatenated [2; 4]; Add_concatenated [3; 5]]. split; [solve [no_empty]|]. split.
  - intros p v L w Hw. destruct v as [|[|[|[|[|[|[|v]]]]]]]; cbn in L; try discriminate L; try (injection L as <-); try lia.
    + assert (w = 2) as -> by lia. apply descends_step with (p := 1); [constructor|reflexivity].
    + assert (w = 2 \/ w = 3) as [-> | ->] by lia; apply descends_step with (p := 1); try constructor; reflexivity.
    + unfold last_parent in L. cbn in L. destruct v; discriminate.
  - intros o r b l. eexists. eexists. split; [cbv -[IZR to_float Rdiv]; reflexivity|]. split; [cbv -[IZR to_float Rdiv vertex_record edge_record asString_float asString_id lit optimizerTypeToString lossTypeToString]; reflexivity|]. split; reflexivity.
Qed.
Print Assumptions joined_join_refuted.
