(** The whole network of a task. *)
From Coq Require Import List Arith Bool NArith ZArith QArith Reals Lia Lra.
From Verif Require Import Outcome Chars NumText_Model Tensor_Model Graph_Model Graph_Spec Net_Model Net_Spec Net_Graph ModelFile_Model ModelFile_Spec ModelFile_Proofs ModelFile_Text ModelFile_Order ModelFile_Props TaskNet_Model TaskNet_Spec TaskNet_Proofs TaskNet_Shapes TaskNet_Front.
Import ListNotations.
Local Open Scope nat_scope.

(** ** The order of the outputs *)
Section Order.
Context (d : dsl) (p : nat) (ls : list nat).
Definition leaf (id : nat) : bool := match vertex_at d id with Ok v => producesOutput v | _ => false end.
Context (Hls : forall v, vertex_at d p = Ok v -> edges v = ls) (Lls : Forall (fun e => leaf e = true) ls) (Nls : NoDup ls).
Context (Ends : forall id v, vertex_at d id = Ok v -> leaf id = true -> edges v = []).
Context (Only : forall id v e, vertex_at d id = Ok v -> id <> p -> In e (edges v) -> leaf e = false).
Definition in_order (b : building) : Prop := ~ In p (built b) /\ filter leaf (rev (built b)) = [] \/ In p (built b) /\ filter leaf (rev (built b)) = ls.
Lemma order_leaf : forall fuel e b b', build_layer fuel d e b = Ok b' -> leaf e = true -> ~ In e (built b) -> built b' = e :: built b.
Proof.
  intros [|fuel] e b b' H L N; cbn [build_layer] in H; [discriminate|]. destruct (existsb (Nat.eqb e) (built b)) eqn:X; [apply existsb_exists in X as (y & I & E); apply Nat.eqb_eq in E as <-; contradiction|].
  destruct (vertex_at d e) as [v| |] eqn:Ev; cbn [obind] in H; try discriminate. destruct (construct v) as [[]| |]; cbn [obind] in H; try discriminate. rewrite (Ends e v Ev L) in H. cbn [obind] in H. injection H as <-. reflexivity.
Qed.
Lemma order_layer : forall fuel id b b', build_layer fuel d id b = Ok b' -> leaf id = false -> in_order b -> in_order b' /\ (forall x, In x (built b) -> In x (built b')).
Proof.
  induction fuel as [|fuel IH]; intros id b b' H L O; cbn [build_layer] in H; [discriminate|]. destruct (existsb (Nat.eqb id) (built b)) eqn:X; [injection H as <-; auto|].
  assert (Nid : ~ In id (built b)). { intros I. assert (existsb (Nat.eqb id) (built b) = true) by (apply existsb_exists; exists id; now rewrite Nat.eqb_refl). congruence. }
  destruct (vertex_at d id) as [v| |] eqn:Ev; cbn [obind] in H; try discriminate. destruct (construct v) as [[]| |]; cbn [obind] in H; try discriminate.
  set (b0 := {| built := id :: built b; records := records b ++ [vertex_record id v]; connections := connections b |}) in H.
  assert (F0 : filter leaf (rev (built b0)) = filter leaf (rev (built b))) by (cbn [built b0 rev]; rewrite filter_app; cbn [filter]; rewrite L; apply app_nil_r).
  match type of H with context [?g (edges v) b0] => set (children := g) in H end.
  assert (C : forall b1, children (edges v) b0 = Ok b1 -> in_order b1 /\ (forall x, In x (built b0) -> In x (built b1))).
  { destruct (Nat.eq_dec id p) as [->|Np].
    - rewrite (Hls v Ev). destruct O as [[Op Of]|[Op _]]; [|contradiction]. rewrite <- F0 in Of.
      assert (G : forall es done b2 b1, children es b2 = Ok b1 -> done ++ es = ls -> filter leaf (rev (built b2)) = done -> In p (built b2) -> (in_order b1 /\ forall x, In x (built b2) -> In x (built b1))).
      { induction es as [|e es IHe]; intros done b2 b1 E Q F I; cbn in E.
        - injection E as <-. split; [|auto]. right. split; [exact I|]. rewrite F, <- Q. now rewrite app_nil_r.
        - destruct (build_layer fuel d e b2) as [b3| |] eqn:E3; cbn [obind] in E; try discriminate.
          assert (Le : leaf e = true) by (rewrite Forall_forall in Lls; apply Lls; rewrite <- Q; apply in_or_app; right; now left).
          assert (Ne : ~ In e (built b2)). { intros Ie. assert (In e done) by (rewrite <- F; apply filter_In; split; [now apply in_rev in Ie|exact Le]). rewrite <- Q in Nls. apply NoDup_remove_2 in Nls. apply Nls. apply in_or_app. now left. }
          pose proof (order_leaf _ _ _ _ E3 Le Ne) as B3. destruct (IHe (done ++ [e]) _ b1 E) as [R1 R2].
          + rewrite <- app_assoc. exact Q.
          + cbn [built]. rewrite B3. cbn [rev]. rewrite filter_app, F. cbn [filter]. now rewrite Le.
          + cbn [built]. rewrite B3. now right.
          + split; [exact R1|]. intros x Ix. apply R2. cbn [built]. rewrite B3. now right. }
      intros b1 E. apply (G _ [] b0 b1 E eq_refl Of). now left.
    - assert (O0 : in_order b0). { destruct O as [[Op Of]|[Op Of]]; [left|right]; rewrite F0; (split; [|exact Of]); cbn [built b0 In]; tauto. }
      assert (G : forall es b2 b1, children es b2 = Ok b1 -> (forall e, In e es -> leaf e = false) -> in_order b2 -> in_order b1 /\ (forall x, In x (built b2) -> In x (built b1))).
      { induction es as [|e es IHe]; intros b2 b1 E Q F; cbn in E; [injection E as <-; auto|]. destruct (build_layer fuel d e b2) as [b3| |] eqn:E3; cbn [obind] in E; try discriminate.
        destruct (IH e b2 b3 E3 (Q e (or_introl eq_refl)) F) as [O3 I3]. destruct (IHe _ b1 E (fun e' I => Q e' (or_intror I))) as [R1 R2]; [exact O3|]. split; [exact R1|]. intros x Ix. apply R2. cbn [built]. auto. }
      intros b1 E. apply (G _ _ _ E); [intros e I; exact (Only id v e Ev Np I)|exact O0]. }
  destruct (children (edges v) b0) as [b1| |]; cbn [obind] in H; try discriminate. destruct (C b1 eq_refl) as [C1 C2]. assert (I0 : forall x, In x (built b) -> In x (built b0)) by (intros x Ix; now right).
  destruct (edges v); injection H as <-; [auto|]. split; [exact C1|]. cbn [built]. auto.
Qed.
Lemma order_build : forall net, build d = Ok net -> (forall h, In h (inputReceptors d) -> leaf h = false) -> In p (built net) -> filter leaf (rev (built net)) = ls.
Proof.
  intros net H Hh Ip. unfold build in H. cbv zeta in H. revert H. match goal with |- fold_left _ _ (Ok ?b0) = _ -> _ => assert (O0 : in_order b0) by (left; split; [intros []|reflexivity]); generalize dependent b0 end.
  revert Hh. generalize (inputReceptors d) as hs. induction hs as [|h hs IH]; intros Hh b O H; cbn [fold_left] in H.
  - injection H as ->. destruct O as [[O _]|[_ O]]; [contradiction|exact O].
  - cbn [obind] in H. destruct (build_layer _ d h b) as [b1| |] eqn:E.
    + apply (IH (fun x I => Hh x (or_intror I)) b1); [|exact H]. now apply (order_layer _ _ _ _ E (Hh h (or_introl eq_refl))).
    + exfalso. clear - H. induction hs; cbn in H; [discriminate|auto].
    + exfalso. clear - H. induction hs; cbn in H; [discriminate|auto].
Qed.
End Order.

(** ** All together *)
Lemma run_both : forall a b d d1, run a d = Ok d1 -> run (a ++ b) d = run b d1.
Proof. induction a as [|c a IH]; intros b d d1 H; cbn [run app] in *; [now injection H as ->|]. destruct (run_call c d); cbn [obind] in *; try discriminate. now apply IH. Qed.
Lemma set_up_fields : forall cce memory b v, node_type (set_up cce memory b v) = node_type v /\ inputShapes (set_up cce memory b v) = inputShapes v /\ producesOutput (set_up cce memory b v) = producesOutput v /\
  acceptsInput (set_up cce memory b v) = acceptsInput v /\ use_bias (set_up cce memory b v) = use_bias v /\ edges (set_up cce memory b v) = [S b].
Proof. intros cce memory b []. repeat split. Qed.
Lemma nth_at : forall {A} (a : list A) x c n, n = length a -> nth_error (a ++ x :: c) n = Some x.
Proof. intros A a x c n ->. now rewrite nth_error_app2, Nat.sub_diag by lia. Qed.

Section Whole.
Context (given : list column) (expected : list shape) (g : goal) (complexity : Q).
Notation cce := (categorical expected g).
Notation memory := (is_memory g).
Context (cs : list call) (pre : list vertex) (l1 : vertex) (b : nat) (o1 : shape) (conv : bool) (psh : list Layer_Model.shape) (hs : list nat).
Context (lax : Prop) (F : front lax given cce memory cs pre l1 b o1 psh hs) (He : Forall (fun s => exists e, s = (1, e, 1)%N) expected).
Notation o2 := (1, hidden_size given expected complexity conv, 1)%N.
Notation prog := (cs ++ rest given expected g complexity b o1 conv).
Definition fork_at : nat := if cce then 4 + b else 3 + b.
Lemma whole_joins : joins_something prog.
Proof.
  intros I. apply in_app_or in I as [I|I]; [exact (f_joins _ _ _ _ _ _ _ _ _ _ _ F I)|]. unfold rest in I. cbv zeta in I.
  assert (S : forall id, ~ In (Add_concatenated []) (settings expected g id)) by (intros id; unfold settings; destruct cce, memory; cbn; intuition discriminate).
  assert (O : forall l p i id, ~ In (Add_concatenated []) (outputs_from expected g p i id l)) by (induction l as [|s l IH]; intros p i id; cbn [outputs_from app In]; [auto|]; intros [Z|[Z|Z]]; try discriminate; exact (IH _ _ _ Z)).
  repeat (apply in_app_or in I as [I|I]; [first [exact (S _ I)|cbn in I; intuition discriminate]|]). destruct cce; [destruct I as [I|I]; [discriminate|]|]; exact (O _ _ _ _ I).
Qed.
Lemma whole_parents : parents_of prog = parents_of cs ++ hidden_parents expected g b.
Proof. now rewrite parents_of_app, rest_parents. Qed.
Definition all_vertices : list vertex := pre ++ set_up cce memory b l1 :: hidden expected g b o1 o2.
Lemma whole_run : forall o r rb l, exists d, run prog (new_dsl o r rb l) = Ok d /\ vertices d = all_vertices /\ inputReceptors d = hs.
Proof.
  intros o r rb l. destruct (f_run _ _ _ _ _ _ _ _ _ _ _ F o r rb l) as (d1 & R1 & V1 & H1). eexists. rewrite (run_both _ _ _ _ R1).
  rewrite (rest_run given expected g complexity d1 pre l1 b o1 conv V1 (f_b _ _ _ _ _ _ _ _ _ _ _ F) (f_weighted _ _ _ _ _ _ _ _ _ _ _ F) (f_edges _ _ _ _ _ _ _ _ _ _ _ F)). split; [reflexivity|]. split; [reflexivity|exact H1].
Qed.
Lemma hidden_cases : forall v, In v (hidden expected g b o1 o2) -> construct v = Ok tt /\ (producesOutput v = true -> edges v = []) /\ (1 <= length expected -> edges v = [] -> producesOutput v = true) /\ (length expected = 1 -> length (edges v) <= 1).
Proof.
  assert (Cd : forall i es, construct (plain dropout linear i i false false false es) = Ok tt). { intros i es. unfold construct. cbn [node_type plain dropout_rate]. destruct (Rlt_dec 0 0); [lra|]. destruct (Rlt_dec 1 0); [lra|reflexivity]. }
  intros v I. unfold hidden in I.
  assert (Seq : forall a, (1 <= length expected -> seq a (length expected) = [] -> False) /\ (length expected = 1 -> length (seq a (length expected)) <= 1)) by (intros a; split; [intros L E; apply (f_equal (@length nat)) in E; rewrite seq_length in E; cbn in E; lia|intros ->; cbn; lia]).
  repeat (apply in_app_or in I as [I|I]).
  - destruct I as [<-|[<-|[]]]; (split; [first [apply Cd|reflexivity]|]); cbn; repeat split; intros; try discriminate; lia.
  - destruct cce; cbn [In] in I; [destruct I as [<-|[<-|[]]]|destruct I as [<-|[]]]; (split; [first [apply Cd|reflexivity]|]); cbn [plain edges producesOutput]; (split; [discriminate|]); split; try (intros; discriminate); try (intros; cbn; lia); try (intros L E; destruct (proj1 (Seq _) L E)); apply Seq.
  - apply in_map_iff in I as (s & <- & _). cbn. repeat split; intros; auto; lia.
Qed.
Lemma front_cases : forall v, In v (pre ++ [set_up cce memory b l1]) -> construct v = Ok tt /\ producesOutput v = false /\ length (edges v) = 1.
Proof.
  destruct (set_up_fields cce memory b l1) as (E1 & E2 & E3 & E4 & E5 & E6). intros v I. apply in_app_or in I as [I|[<-|[]]].
  - pose proof (f_pre _ _ _ _ _ _ _ _ _ _ _ F) as P. rewrite Forall_forall in P. destruct (P v I) as (? & ? & ?). auto.
  - rewrite E3, E6. split; [|split; [exact (f_first _ _ _ _ _ _ _ _ _ _ _ F)|reflexivity]]. unfold construct. rewrite E1. pose proof (f_weighted _ _ _ _ _ _ _ _ _ _ _ F) as W. destruct (node_type l1); try discriminate; reflexivity.
Qed.
Lemma all_split : all_vertices = (pre ++ [set_up cce memory b l1]) ++ hidden expected g b o1 o2.
Proof. unfold all_vertices. now rewrite <- app_assoc. Qed.
Lemma hidden_at : forall j v, nth_error (hidden expected g b o1 o2) j = Some v -> nth_error all_vertices (b + j) = Some v.
Proof. intros j v H. assert (Fb := f_b _ _ _ _ _ _ _ _ _ _ _ F). rewrite all_split, nth_error_app2 by (rewrite app_length; cbn [length]; lia). rewrite app_length. cbn [length]. replace (b + j - (length pre + 1)) with j by lia. exact H. Qed.

Context (d : dsl) (net : building) (D : described (parents_of prog) d) (HI : forall i v, nth_error (vertices d) i = Some v -> nth i (parents_of prog) [] = [] -> acceptsInput v = true).
Context (B : build d = Ok net) (V : vertices d = all_vertices) (R : inputReceptors d = hs) (Ne : 1 <= length expected).
Lemma at_iff : forall id v, vertex_at d id = Ok v <-> 1 <= id /\ nth_error all_vertices (id - 1) = Some v.
Proof.
  intros id v. rewrite <- V. rewrite vertex_at_ok. split; intros [H1 H2]; (split; [|exact H2]); [lia|]. assert (id - 1 < length (vertices d)) by (apply nth_error_Some; congruence). lia.
Qed.
Lemma whole_outputs_end : outputs_end d.
Proof. intros v I P. rewrite V, all_split in I. apply in_app_or in I as [I|I]; [apply front_cases in I as (_ & Z & _); congruence|]. now apply hidden_cases in I as (_ & Z & _); auto. Qed.
Lemma whole_ends_are_outputs : ends_are_outputs d.
Proof. intros v I P. rewrite V, all_split in I. apply in_app_or in I as [I|I]; [apply front_cases in I as (_ & _ & Z); rewrite P in Z; discriminate|]. apply hidden_cases in I as (_ & _ & Z & _); auto. Qed.
Lemma whole_no_sharing : length expected = 1 -> no_sharing d.
Proof. intros L v I. rewrite V, all_split in I. apply in_app_or in I as [I|I]; [apply front_cases in I as (_ & _ & Z); lia|]. apply hidden_cases in I as (_ & _ & _ & Z); auto. Qed.
Lemma at_fork : exists v, vertex_at d fork_at = Ok v /\ edges v = seq (S fork_at) (length expected) /\ producesOutput v = false.
Proof.
  assert (HA := hidden_at). unfold fork_at. destruct cce eqn:Ec; eexists; rewrite at_iff.
  - split; [split; [lia|]|]. { replace (4 + b - 1) with (b + 3) by lia. apply HA. unfold hidden. rewrite Ec. reflexivity. } split; reflexivity.
  - split; [split; [lia|]|]. { replace (3 + b - 1) with (b + 2) by lia. apply HA. unfold hidden. rewrite Ec. reflexivity. } split; reflexivity.
Qed.
Lemma at_hidden : exists v, vertex_at d (S (S b)) = Ok v /\ node_type v = full /\ edges v = [3 + b].
Proof. assert (HA := hidden_at). eexists. rewrite at_iff. split; [split; [lia|]|]. { replace (S (S b) - 1) with (b + 1) by lia. apply HA. reflexivity. } split; reflexivity. Qed.
Lemma whole_forks : 2 <= length expected -> exists id v, vertex_at d id = Ok v /\ needs_errors v /\ forks d id.
Proof.
  intros L. assert (HA := hidden_at). destruct at_fork as (vf & Ef & Es & _). destruct at_hidden as (vh & Eh & Et & Ee). exists (S (S b)), vh. split; [exact Eh|]. split; [now left|].
  assert (Fk : forks d fork_at) by (apply fork_here with (v := vf); [exact Ef|rewrite Es, seq_length; exact L]).
  apply fork_later with (v := vh) (e := 3 + b); [exact Eh|rewrite Ee; now left|]. unfold fork_at in *. destruct cce eqn:Ec; [|exact Fk].
  eapply fork_later with (e := 4 + b); [| |exact Fk]; [rewrite at_iff; split; [lia|]; replace (3 + b - 1) with (b + 2) by lia; apply HA; unfold hidden; rewrite Ec; reflexivity|now left].
Qed.
Lemma at_output : forall k s, nth_error expected k = Some s -> exists v, vertex_at d (S fork_at + k) = Ok v /\ producesOutput v = true.
Proof.
  intros k s H. assert (HA := hidden_at). unfold fork_at. destruct cce eqn:Ec; eexists; rewrite at_iff.
  - split; [split; [lia|]|]. { replace (S (4 + b) + k - 1) with (b + (4 + k)) by lia. apply HA. unfold hidden. rewrite Ec. cbn [app nth_error Nat.add]. rewrite nth_error_map, H. reflexivity. } reflexivity.
  - split; [split; [lia|]|]. { replace (S (3 + b) + k - 1) with (b + (3 + k)) by lia. apply HA. unfold hidden. rewrite Ec. cbn [app nth_error Nat.add]. rewrite nth_error_map, H. reflexivity. } reflexivity.
Qed.
Lemma leaf_iff : forall id, leaf d id = true <-> exists k, id = S fork_at + k /\ k < length expected.
Proof.
  intros id. split.
  - intros L. unfold leaf in L. destruct (vertex_at d id) as [v| |] eqn:E; try discriminate. apply at_iff in E as [H E]. assert (Fb := f_b _ _ _ _ _ _ _ _ _ _ _ F). rewrite all_split in E. destruct (lt_dec (id - 1) b) as [Lb|Lb].
    + rewrite nth_error_app1 in E by (rewrite app_length; cbn [length]; lia). apply nth_error_In, front_cases in E as (_ & Z & _). congruence.
    + rewrite nth_error_app2 in E by (rewrite app_length; cbn [length]; lia). rewrite app_length in E. cbn [length] in E. replace (length pre + 1) with b in E by lia. remember (id - 1 - b) as j eqn:Ej. unfold hidden, fork_at in *. destruct cce.
      * cbn [app] in E. do 4 (destruct j as [|j]; [cbn in E; injection E as <-; discriminate|]). cbn [nth_error] in E. apply nth_map_error in E as (s & Es & _). exists j. split; [lia|]. apply nth_error_Some. congruence.
      * cbn [app] in E. do 3 (destruct j as [|j]; [cbn in E; injection E as <-; discriminate|]). cbn [nth_error] in E. apply nth_map_error in E as (s & Es & _). exists j. split; [lia|]. apply nth_error_Some. congruence.
  - intros (k & -> & L). destruct (nth_error expected k) as [s|] eqn:E; [|apply nth_error_None in E; lia]. destruct (at_output k s E) as (v & Ev & P). unfold leaf. now rewrite Ev.
Qed.
Lemma whole_outputs : outputs (network d net) = seq (S fork_at) (length expected).
Proof.
  destruct at_fork as (vf & Ef & Es & Pf). change (filter (leaf d) (rev (built net)) = seq (S fork_at) (length expected)).
  assert (Par : forall e, leaf d e = true -> nth (e - 1) (parents_of prog) [] = [fork_at]).
  { intros e L. apply leaf_iff in L as (k & -> & Lk). rewrite whole_parents, app_nth2 by (rewrite (f_parents _ _ _ _ _ _ _ _ _ _ _ F); unfold fork_at; destruct cce; lia). rewrite (f_parents _ _ _ _ _ _ _ _ _ _ _ F). unfold hidden_parents, fork_at. destruct cce.
    - replace (S (4 + b) + k - 1 - b) with (4 + k) by lia. cbn [app nth plus]. now apply nth_repeat_lt.
    - replace (S (3 + b) + k - 1 - b) with (3 + k) by lia. cbn [app nth plus]. now apply nth_repeat_lt. }
  apply (order_build d fork_at).
  - intros v E. rewrite Ef in E. injection E as <-. exact Es.
  - apply Forall_forall. intros e I. apply in_seq in I. apply leaf_iff. exists (e - S fork_at). lia.
  - apply seq_NoDup.
  - intros id v E L. unfold leaf in L. rewrite E in L. apply whole_outputs_end; [|exact L]. apply vertex_at_ok in E as [_ E]. now apply nth_error_In in E.
  - intros id v e E Np I. destruct (leaf d e) eqn:L; [|reflexivity]. exfalso. apply Np. pose proof (Par e L) as Q.
    pose proof E as E'. apply vertex_at_ok in E' as [Hr E'].
    assert (In e (edges_at d id)) by (unfold edges_at; now rewrite E'). apply (edge_iff _ d D) in H as [_ H]; [|exact Hr]. rewrite Q in H. destruct H as [<-|[]]. reflexivity.
  - exact B.
  - intros h Ih. destruct (leaf d h) eqn:L; [|reflexivity]. exfalso. pose proof (Par h L) as Q. assert (G := proj1 (heads_iff _ d net D HI h) Ih). destruct G as [_ G]. rewrite Q in G. discriminate.
  - apply (built_all _ d net D HI B). now apply vertex_at_ok in Ef.
Qed.
Definition shapes (id : nat) : Layer_Model.shape :=
  match nat_shape o1 with (r1, c1, _) => sh expected g o1 o2 r1 c1 psh id end.
Lemma whole_shapes : forall id v, vertex_at d id = Ok v -> shapes_are lax d net shapes id v.
Proof.
  intros id v E. apply at_iff in E as [H E]. assert (Fb := f_b _ _ _ _ _ _ _ _ _ _ _ F). assert (Fs := f_psh _ _ _ _ _ _ _ _ _ _ _ F). destruct (f_o1 _ _ _ _ _ _ _ _ _ _ _ F) as (r1 & c1 & Eo & Hr1). rewrite all_split in E. destruct (lt_dec (id - 1) b) as [Lb|Lb].
  - rewrite nth_error_app1 in E by (rewrite app_length; cbn [length]; lia). replace id with (S (id - 1)) by lia. rewrite whole_parents in D, HI. apply (f_shapes _ _ _ _ _ _ _ _ _ _ _ F d net (hidden expected g b o1 o2) (hidden_parents expected g b)); auto.
    intros i Hi. unfold shapes. rewrite Eo. unfold sh. replace (S i - 1) with i by lia. change (tail_shapes expected g o1 o2 r1 c1) with ([nat_shape o1] ++ tl (tail_shapes expected g o1 o2 r1 c1)). rewrite app_assoc, app_nth1, Eo by (rewrite app_length; cbn [length]; lia). reflexivity.
  - rewrite nth_error_app2 in E by (rewrite app_length; cbn [length]; lia). rewrite app_length in E. cbn [length] in E. replace (length pre + 1) with b in E by lia.
    rewrite whole_parents in D, HI. pose proof (tail_ok expected g d net (parents_of cs) pre (set_up cce memory b l1) b o1 o2 r1 c1 D HI B (f_parents _ _ _ _ _ _ _ _ _ _ _ F) Fb V Eo Hr1 (ex_intro _ _ eq_refl) He psh Fs _ _ E) as [A [G SB]].
    replace (S b + (id - 1 - b)) with id in * by lia. unfold shapes_are, arriving_shapes. rewrite A. unfold shapes. rewrite Eo. split; [exact G|left; exact SB].
Qed.
Lemma shape_of_output : forall k s, nth_error expected k = Some s -> shapes (S fork_at + k) = nat_shape s.
Proof.
  intros k s H. destruct (f_o1 _ _ _ _ _ _ _ _ _ _ _ F) as (r1 & c1 & Eo & Hr1). unfold shapes. rewrite Eo. assert (Fb := f_b _ _ _ _ _ _ _ _ _ _ _ F). assert (Fs := f_psh _ _ _ _ _ _ _ _ _ _ _ F). unfold sh. rewrite app_nth2 by (unfold fork_at; destruct cce; lia).
  unfold tail_shapes, fork_at. assert (M : nth k (map nat_shape expected) (0, 0, 0) = nat_shape s) by (apply nth_error_nth; now rewrite nth_error_map, H). destruct cce.
  - replace (S (4 + b) + k - 1 - length psh) with (5 + k) by lia. exact M.
  - replace (S (3 + b) + k - 1 - length psh) with (4 + k) by lia. exact M.
Qed.
Lemma whole_given : forall xs, given_of given xs -> given_fit d xs.
Proof.
  intros xs G. unfold given_fit. rewrite R. unfold given_of in G. assert (Fb := f_b _ _ _ _ _ _ _ _ _ _ _ F).
  assert (K : forall i v c x, nth_error (pre ++ [l1]) i = Some v -> inputShapes v = [size c] -> shaped x (nat_shape (size c)) -> exists v', vertex_at d (S i) = Ok v' /\ shaped x (input_shape v')).
  { intros i v c x Ev Es Hx. assert (i < length (pre ++ [l1])) by (apply nth_error_Some; congruence). rewrite app_length in H. cbn [length] in H. destruct (Nat.eq_dec i (length pre)) as [->|Ni].
    - rewrite (nth_at pre l1 [] _ eq_refl) in Ev. injection Ev as Ev. exists (set_up cce memory b l1). split.
      + apply at_iff. split; [lia|]. replace (S (length pre) - 1) with (length pre) by lia. now apply nth_at.
      + destruct (set_up_fields cce memory b l1) as (_ & Ei & _). unfold input_shape. rewrite Ei, Ev, Es. exact Hx.
    - rewrite nth_error_app1 in Ev by lia. exists v. split.
      + apply at_iff. split; [lia|]. replace (S i - 1) with i by lia. unfold all_vertices. rewrite nth_error_app1 by lia. exact Ev.
      + unfold input_shape. rewrite Es. exact Hx. }
  assert (M : forall hs' given', Forall2 (fun id c => exists i v, id = S i /\ nth_error (pre ++ [l1]) i = Some v /\ inputShapes v = [size c]) hs' given' -> forall xs', Forall2 (fun c x => shaped x (nat_shape (size c))) given' xs' ->
    Forall2 (fun id x => exists v, vertex_at d id = Ok v /\ shaped x (input_shape v)) hs' xs').
  { intros hs' given' P. induction P as [|id c hs' given' (i & v & -> & Ev & Es) P IH]; intros xs' G'; inversion G'; subst; constructor; [eapply K; eauto|now apply IH]. }
  exact (M _ _ (f_given _ _ _ _ _ _ _ _ _ _ _ F) _ G).
Qed.
Lemma whole_truth : forall ys, truth_of expected ys <-> outputs_fit (network d net) shapes ys.
Proof.
  intros ys. unfold outputs_fit, truth_of. rewrite whole_outputs.
  assert (G : forall l k, (forall j s, nth_error l j = Some s -> shapes (k + j) = nat_shape s) -> forall ys, Forall2 (fun s y => shaped y (nat_shape s)) l ys <-> Forall2 (fun id y => shaped y (shapes id)) (seq k (length l)) ys).
  { induction l as [|s l IH]; intros k Hk zs; cbn [length seq]; [split; intros Q; inversion Q; constructor|].
    assert (E0 := Hk 0 s eq_refl). rewrite Nat.add_0_r in E0. assert (Hk' : forall j s0, nth_error l j = Some s0 -> shapes (S k + j) = nat_shape s0) by (intros j s0 Hj; rewrite <- (Hk (S j) s0 Hj); f_equal; lia).
    split; intros Q; inversion Q; subst; constructor; try (now apply (IH (S k) Hk')); congruence. }
  apply G. apply shape_of_output.
Qed.
Lemma whole_last : forall id v, vertex_at d id = Ok v -> producesOutput v = true -> acceptsInput v = false /\ node_type v = full /\ activation_type v = if cce then softmax else sigmoid.
Proof.
  intros id v E P. apply at_iff in E as [_ E]. apply nth_error_In in E. rewrite all_split in E. apply in_app_or in E as [I|I]; [apply front_cases in I as (_ & Z & _); congruence|]. unfold hidden in I.
  repeat (apply in_app_or in I as [I|I]); [destruct I as [<-|[<-|[]]]; discriminate| |apply in_map_iff in I as (s & <- & _); repeat split]. destruct cce; cbn [In] in I; [destruct I as [<-|[<-|[]]]|destruct I as [<-|[]]]; discriminate.
Qed.
End Whole.

Definition net_of (lax : Prop) (given : list column) (expected : list shape) (g : goal) (prog : list call) : Prop :=
  joins_something prog /\ forall o r rb l, exists d net f, run prog (new_dsl o r rb l) = Ok d /\ build d = Ok net /\
    vertices d <> [] /\ outputs_end d /\ ends_are_outputs d /\ (length expected = 1 -> no_sharing d) /\ (2 <= length expected -> exists id v, vertex_at d id = Ok v /\ needs_errors v /\ forks d id) /\
    (forall id v, vertex_at d id = Ok v -> shapes_are lax d net f id v) /\ (forall xs, given_of given xs -> given_fit d xs) /\ (forall ys, truth_of expected ys <-> outputs_fit (network d net) f ys) /\
    (forall id v, vertex_at d id = Ok v -> producesOutput v = true -> acceptsInput v = false /\ node_type v = full /\ activation_type v = if categorical expected g then softmax else sigmoid) /\
    (forall i c, nth_error given i = Some c -> 2 <= length given -> exists v, vertex_at d (S i) = Ok v /\ node_type v = flatten /\ acceptsInput v = true /\ inputShapes v = [size c]).
Lemma front_net : forall (lax : Prop) given expected g complexity cs pre l1 b o1 conv psh hs, front lax given (categorical expected g) (is_memory g) cs pre l1 b o1 psh hs ->
  (forall i c, nth_error given i = Some c -> 2 <= length given -> exists v, nth_error pre i = Some v /\ node_type v = flatten /\ acceptsInput v = true /\ inputShapes v = [size c]) ->
  Forall (fun s => exists e, s = (1, e, 1)%N) expected -> expected <> [] -> net_of lax given expected g (cs ++ rest given expected g complexity b o1 conv).
Proof.
  intros lax given expected g complexity cs pre l1 b o1 conv psh hs Fr Fl He Nx. assert (Ne : 1 <= length expected) by (destruct expected; [contradiction|cbn; lia]). split; [eapply whole_joins; exact Fr|].
  intros o r rb l. destruct (whole_run given expected g complexity cs pre l1 b o1 conv psh hs lax Fr o r rb l) as (d & Rn & V & Rc).
  destruct (program_ok _ _ _ _ _ _ (whole_joins given expected g complexity cs pre l1 b o1 conv psh hs lax Fr) Rn) as [D HI].
  destruct (build_succeeds _ _ _ _ _ _ Rn) as [_ Bd]. destruct Bd as [net B].
  { intros v I. rewrite V, all_split in I. apply in_app_or in I as [I|I]; [eapply front_cases in I as (Z & _); [exact Z|exact Fr]|]. eapply hidden_cases in I as (Z & _); [exact Z|exact Fr]. }
  exists d, net, (shapes given expected g complexity o1 conv psh).
  pose proof (whole_shapes given expected g complexity cs pre l1 b o1 conv psh hs lax Fr He d net D HI B V Ne) as W.
  split; [exact Rn|]. split; [exact B|]. split; [rewrite V; unfold all_vertices; destruct pre; discriminate|].
  split; [eapply whole_outputs_end; eauto|]. split; [eapply whole_ends_are_outputs; eauto|]. split; [eapply whole_no_sharing; eauto|]. split; [eapply whole_forks; eauto|].
  split; [exact W|]. split; [eapply whole_given; eauto|]. split; [eapply whole_truth; eauto|]. split; [eapply whole_last; eauto|].
  intros i c Hi L. destruct (Fl i c Hi L) as (v & Ev & Tv). exists v. split; [|exact Tv]. apply vertex_at_ok. rewrite V. assert (i < length pre) by (apply nth_error_Some; congruence). unfold all_vertices. rewrite app_length. split; [lia|]. replace (S i - 1) with i by lia. now rewrite nth_error_app1.
Qed.
Lemma first_of : forall given expected complexity n m, given = n :: m -> m <> [] -> first_layer given expected complexity =
  Ok (map (fun c => Add_input flatten (size c) (values c) false linear) given ++ [Add_concatenated (seq 1 (length given)); Add_layer (S (length given)) (1, total_values (map size given), 1)%N (1, size1 given expected complexity, 1)%N full false leaky],
      S (S (length given)), (1, size1 given expected complexity, 1)%N, false).
Proof. intros given expected complexity c [|c' m] -> N; [contradiction|reflexivity]. Qed.
Lemma several_net : forall (lax : Prop) given expected g complexity, 2 <= length given -> Forall (joinable lax) given -> Forall (fun s => exists e, s = (1, e, 1)%N) expected -> expected <> [] ->
  exists prog, task_program given expected g complexity = Ok prog /\ net_of lax given expected g prog.
Proof.
  intros lax given expected g complexity L J He Nx. destruct (several_front lax given (categorical expected g) (is_memory g) (size1 given expected complexity) L J) as (pre & l1 & Fp & Fr).
  assert (E : exists c m, given = c :: m /\ m <> []) by (destruct given as [|c [|c' m]]; cbn in L; try lia; exists c, (c' :: m); split; [reflexivity|discriminate]). destruct E as (c & m & E & N).
  eexists. split; [unfold task_program; rewrite (first_of _ _ _ _ _ E N); reflexivity|]. exact (front_net lax given expected g complexity _ pre l1 _ _ false _ _ Fr (fun i c Hi _ => Fp i c Hi) He Nx).
Qed.
Lemma task_net : forall given expected g complexity, usable given -> Forall (fun s => exists e, s = (1, e, 1)%N) expected -> expected <> [] ->
  exists prog, task_program given expected g complexity = Ok prog /\ net_of False given expected g prog.
Proof.
  intros given expected g complexity U He Nx. destruct given as [|c [|c2 given']] eqn:Eg.
  - destruct U.
  - assert (Fl : forall i c', nth_error [c] i = Some c' -> 2 <= length [c] -> exists v, nth_error (@nil vertex) i = Some v /\ node_type v = flatten /\ acceptsInput v = true /\ inputShapes v = [size c']) by (cbn; intros; lia).
    destruct U as [P|[NP Fc]].
    + destruct (picture_front False [c] (categorical expected g) (is_memory g) c eq_refl P) as [l1 Fr]. eexists. split; [|exact (front_net False [c] expected g complexity _ _ l1 _ _ true _ _ Fr Fl He Nx)].
      unfold task_program, first_layer. unfold big_picture in P. destruct (size c) as [[h w] k]. destruct P as (-> & _). reflexivity.
    + destruct (plain_front False [c] (categorical expected g) (is_memory g) c (size1 [c] expected complexity) eq_refl Fc) as [l1 Fr]. eexists. split; [|exact (front_net False [c] expected g complexity _ _ l1 _ _ false _ _ Fr Fl He Nx)].
      unfold task_program, first_layer. rewrite NP. reflexivity.
  - apply several_net; auto; [cbn; lia|]. destruct U as [Fc _]. eapply Forall_impl; [|exact Fc]. intros x Hx. unfold flat_column, joinable in *. destruct (size x) as [[h w] k]. tauto.
Qed.
