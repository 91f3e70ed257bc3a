(** The network built from a description, as a graph. *)
From Coq Require Import List Arith Bool NArith Reals Lia Permutation.
From Verif Require Import Outcome Tensor_Model Graph_Model Graph_Spec Graph_Forward Graph_Props Net_Model Net_Spec.
From Verif Require ModelFile_Model ModelFile_Spec ModelFile_Proofs ModelFile_Text ModelFile_Order ModelFile_Props.
Import ListNotations.
Local Open Scope nat_scope.
Import ModelFile_Model ModelFile_Spec ModelFile_Proofs ModelFile_Text ModelFile_Order.

Lemma positions_filter : forall {A} (l : list A) d0 (p : A -> bool), map (fun c => nth c l d0) (filter (fun c => p (nth c l d0)) (seq 0 (length l))) = filter p l.
Proof.
  intros A l d0 p. assert (S : forall (f : nat -> A) s, map f (filter (fun c => p (f c)) s) = filter p (map f s)).
  { intros f s. induction s as [|x s IH]; [reflexivity|]. cbn [map filter]. destruct (p (f x)); cbn [map]; now rewrite IH. }
  rewrite S. f_equal. apply nth_ext with (d := d0) (d' := d0); [now rewrite map_length, seq_length|]. intros i Hi. rewrite map_length, seq_length in Hi.
  rewrite (nth_indep _ _ (nth 0 l d0)) by now rewrite map_length, seq_length. rewrite (map_nth (fun c => nth c l d0)). now rewrite seq_nth.
Qed.

Lemma build_joins : forall d b, build d = Ok b -> (forall h, In h (inputReceptors d) -> In h (built b)) /\
  forall u, filter (from_node u) (connections b) = if existsb (Nat.eqb u) (built b) then map (fun e => (u, e)) (edges_at d u) else [].
Proof.
  intros d b H. unfold build in H. cbv zeta in H. generalize (S (length (vertices d))) H. clear H. intros fuel H.
  assert (K : forall hs b0, fold_left (fun b head => do b <- b; build_layer fuel d head b) hs (Ok b0) = Ok b ->
     (forall u, filter (from_node u) (connections b0) = if existsb (Nat.eqb u) (built b0) then map (fun e => (u, e)) (edges_at d u) else []) ->
     (forall h, In h hs \/ In h (built b0) -> In h (built b)) /\ forall u, filter (from_node u) (connections b) = if existsb (Nat.eqb u) (built b) then map (fun e => (u, e)) (edges_at d u) else []).
  { clear H. induction hs as [|h hs IH]; intros b0 H I; cbn [fold_left obind] in H; [injection H as <-; split; [intros h [[]|Hh]; exact Hh|exact I]|].
    assert (ZT : forall l, fold_left (fun b head => do b <- b; build_layer fuel d head b) l (@Throw building) = Throw) by (induction l; auto).
    assert (ZU : forall l, fold_left (fun b head => do b <- b; build_layer fuel d head b) l (@UB building) = UB) by (induction l; auto).
    destruct (build_layer fuel d h b0) as [b1| |] eqn:E; [|rewrite ZT in H; discriminate|rewrite ZU in H; discriminate].
    destruct (build_layer_joins _ _ _ _ _ E) as (Ih & new & [J1 J2 J3 J4]). destruct (IH b1 H) as [K1 K2].
    - intros u. rewrite J1, filter_app, I, J4. destruct (existsb (Nat.eqb u) (built b0)) eqn:X; [|reflexivity]. rewrite app_nil_r. apply existsb_In in X. now rewrite (proj2 (existsb_In u (built b1)) (J2 _ X)).
    - split; [|exact K2]. intros x [[<-|Hx]|Hx]; apply K1; auto. }
  destruct (K _ _ H) as [K1 K2]; [reflexivity|]. split; [|exact K2]. auto.
Qed.

Section Graph.
Context (ps : list (list nat)) (d : dsl) (b : building).
Context (D : described ps d) (HI : forall i v, nth_error (vertices d) i = Some v -> nth i ps [] = [] -> acceptsInput v = true) (B : build d = Ok b).
Let g := network d b.
Let n := length (vertices d).

Lemma built_all : forall u, In u (built b) <-> 1 <= u <= n.
Proof. intros u. destruct (build_rows ps d b D HI B) as (_ & P & _). rewrite P, in_seq. unfold n. lia. Qed.
Lemma edge_iff : forall u w, 1 <= u <= n -> (In w (edges_at d u) <-> 1 <= w <= n /\ In u (nth (w - 1) ps [])).
Proof.
  intros u w Hu. unfold edges_at. destruct (nth_error (vertices d) (u - 1)) as [v|] eqn:E; [|apply nth_error_None in E; unfold n in Hu; lia].
  rewrite (de_edges _ _ D _ _ E), in_adopted. replace (S (u - 1)) with u by lia. reflexivity.
Qed.
Lemma from_edges : forall u, 1 <= u <= n -> filter (from_node u) (connections b) = map (fun e => (u, e)) (edges_at d u).
Proof. intros u Hu. destruct (build_joins d b B) as [_ J]. rewrite J. apply built_all in Hu. now rewrite (proj2 (existsb_In u (built b)) Hu). Qed.
Lemma conn_iff : forall u w, In (u, w) (connections b) <-> 1 <= u <= n /\ 1 <= w <= n /\ In u (nth (w - 1) ps []).
Proof.
  intros u w. destruct (build_joins d b B) as [_ J]. specialize (J u). assert (Q : In (u, w) (connections b) <-> In (u, w) (filter (from_node u) (connections b))).
  { rewrite filter_In. unfold from_node. cbn [fst]. rewrite Nat.eqb_refl. tauto. }
  rewrite Q, J. destruct (existsb (Nat.eqb u) (built b)) eqn:X.
  - apply existsb_In, built_all in X. rewrite in_map_iff. split.
    + intros (e & Ee & He). injection Ee as ->. apply edge_iff in He; auto.
    + intros (_ & H1 & H2). exists w. split; [reflexivity|]. apply edge_iff; auto.
  - split; [intros []|]. intros (H & _). apply built_all, existsb_In in H. congruence.
Qed.
Lemma conn_range : forall c, conn g c -> 1 <= from g c <= n /\ 1 <= to g c <= n /\ In (from g c) (nth (to g c - 1) ps []) /\ from g c < to g c.
Proof.
  intros c Hc. assert (I : In (from g c, to g c) (connections b)). { unfold from, to. rewrite <- surjective_pairing. apply nth_In. exact Hc. }
  apply conn_iff in I as (H1 & H2 & H3). split; [exact H1|]. split; [exact H2|]. split; [exact H3|]. apply (de_before _ _ D) in H3. lia.
Qed.
Lemma arriving_ins : forall w, map (from g) (ins g w) = arriving w (connections b).
Proof.
  intros w. unfold arriving. rewrite <- (positions_filter (connections b) (0, 0) (fun c => Nat.eqb (snd c) w)), map_map. reflexivity.
Qed.
Lemma outs_count : forall u, length (outs g u) = if existsb (Nat.eqb u) (built b) then length (edges_at d u) else 0.
Proof.
  intros u. destruct (build_joins d b B) as [_ J]. specialize (J u). apply (f_equal (@length _)) in J. rewrite <- (positions_filter (connections b) (0, 0) (from_node u)), map_length in J.
  transitivity (length (filter (fun c => from_node u (nth c (connections b) (0, 0))) (seq 0 (length (connections b))))); [reflexivity|]. rewrite J.
  destruct (existsb _ _); [apply map_length|reflexivity].
Qed.
Lemma ins_parents : forall w, 1 <= w <= n -> (ins g w = [] <-> nth (w - 1) ps [] = []).
Proof.
  intros w Hw. split; intros E.
  - destruct (nth (w - 1) ps []) as [|u l] eqn:N; [reflexivity|]. exfalso. assert (I : In u (nth (w - 1) ps [])) by (rewrite N; now left). assert (R := de_before _ _ D _ _ I).
    assert (C : In (u, w) (connections b)) by (apply conn_iff; unfold n in *; repeat split; try assumption; lia). assert (A : In u (arriving w (connections b))).
    { unfold arriving. apply in_map_iff. exists (u, w). split; [reflexivity|]. apply filter_In. split; [exact C|]. apply Nat.eqb_refl. }
    rewrite <- arriving_ins, E in A. destruct A.
  - destruct (ins g w) as [|c l] eqn:N; [reflexivity|]. exfalso. assert (I : In c (ins g w)) by (rewrite N; now left). apply in_ins in I as [I1 I2]. apply conn_range in I1 as (_ & _ & I1 & _). rewrite I2, E in I1. destruct I1.
Qed.
Lemma accepts_iff : forall i v, nth_error (vertices d) i = Some v -> (acceptsInput v = true <-> nth i ps [] = []).
Proof.
  intros i v E. split; [|now apply HI]. intros A. destruct (de_origin _ _ D _ _ E) as [? ? P|? ? P|? ? ? P A2|? ? P A2|A2]; congruence.
Qed.
Lemma heads_iff : forall h, In h (heads g) <-> 1 <= h <= n /\ nth (h - 1) ps [] = [].
Proof.
  intros h. change (heads g) with (inputReceptors d). rewrite (de_heads _ _ D), filter_In, in_seq. fold n. unfold accepting. split.
  - intros [H1 H2]. split; [lia|]. destruct (nth_error (vertices d) (h - 1)) as [v|] eqn:E; [|discriminate]. now apply (accepts_iff _ v E).
  - intros [H1 H2]. split; [lia|]. destruct (nth_error (vertices d) (h - 1)) as [v|] eqn:E; [|apply nth_error_None in E; unfold n in *; lia]. now apply (accepts_iff _ v E).
Qed.
Lemma node_iff : forall v, node g v <-> 1 <= v <= n.
Proof.
  intros v. unfold node. rewrite heads_iff. split.
  - intros [H|H]; [tauto|]. destruct (ins g v) as [|c l] eqn:E; [contradiction|]. assert (I : In c (ins g v)) by (rewrite E; now left). apply in_ins in I as [I1 <-]. now apply conn_range in I1.
  - intros H. destruct (nth (v - 1) ps []) eqn:E; [left; auto|]. right. intros X. apply ins_parents in X; [congruence|exact H].
Qed.
Lemma head_iff : forall id v, vertex_at d id = Ok v -> (acceptsInput v = true <-> In id (heads g)).
Proof. intros id v E. apply vertex_at_ok in E as [H E]. rewrite heads_iff, (accepts_iff _ _ E). unfold n. tauto. Qed.
Lemma head_ins : forall id v, vertex_at d id = Ok v -> (acceptsInput v = true <-> ins g id = []).
Proof. intros id v E. apply vertex_at_ok in E as [H E]. rewrite (accepts_iff _ _ E), ins_parents; [reflexivity|exact H]. Qed.
Lemma network_well_formed : well_formed g.
Proof.
  split; [change (heads g) with (inputReceptors d); rewrite (de_heads _ _ D); apply NoDup_filter, seq_NoDup|]. split.
  - intros h H. apply heads_iff in H as [H1 H2]. now apply ins_parents.
  - split; [intros c Hc; apply node_iff; now apply conn_range in Hc|]. exists (fun v => v). intros c Hc. now apply conn_range in Hc.
Qed.
Lemma node_vertex : forall id, node g id <-> exists v, vertex_at d id = Ok v.
Proof.
  intros id. rewrite node_iff. split.
  - intros H. destruct (nth_error (vertices d) (id - 1)) as [v|] eqn:E; [|apply nth_error_None in E; unfold n in *; lia]. exists v. now apply vertex_at_ok.
  - intros [v H]. now apply vertex_at_ok in H.
Qed.
Lemma outs_edges : forall id v, vertex_at d id = Ok v -> length (outs g id) = length (edges v).
Proof.
  intros id v E. rewrite outs_count. apply vertex_at_ok in E as [H E]. rewrite (proj2 (existsb_In id (built b)) (proj2 (built_all id) H)). unfold edges_at. now rewrite E.
Qed.
Lemma output_iff : forall id, In id (outputs g) <-> exists v, vertex_at d id = Ok v /\ producesOutput v = true.
Proof.
  intros id. unfold g, network. cbn [outputs]. rewrite filter_In, <- in_rev, built_all. split.
  - intros [H1 H2]. destruct (vertex_at d id) as [v| |]; try discriminate. eauto.
  - intros (v & E & P). split; [now apply vertex_at_ok in E|]. now rewrite E.
Qed.
Lemma network_outputs : outputs_end d -> proper_outputs g.
Proof.
  intros O. split.
  - unfold g, network. cbn [outputs]. apply NoDup_filter, NoDup_rev. destruct (build_rows ps d b D HI B) as (_ & P & _). eapply Permutation_NoDup; [symmetry; exact P|apply seq_NoDup].
  - intros o H. apply output_iff in H as (v & E & P). split; [apply node_vertex; eauto|]. assert (L := outs_edges _ _ E). apply vertex_at_ok in E as [_ E]. apply nth_error_In in E. rewrite (O v E P) in L. now destruct (outs g o).
Qed.
Lemma network_ends : ends_are_outputs d -> no_dead_ends g.
Proof.
  intros O v Nv Ev. apply node_vertex in Nv as [x E]. apply output_iff. exists x. split; [exact E|]. assert (L := outs_edges _ _ E). rewrite Ev in L. apply vertex_at_ok in E as [_ E]. apply nth_error_In in E. apply O; [exact E|].
  destruct (edges x); [reflexivity|discriminate].
Qed.
Lemma network_branches : no_sharing d -> no_branches g.
Proof.
  intros O u. rewrite outs_count. destruct (existsb (Nat.eqb u) (built b)); [|lia]. unfold edges_at. destruct (nth_error (vertices d) (u - 1)) as [x|] eqn:E; [|cbn; lia]. apply O. now apply nth_error_In in E.
Qed.
(** The last vertex feeds no other. *)
Lemma network_has_output : ends_are_outputs d -> vertices d <> [] -> outputs g <> [].
Proof.
  intros O N. assert (L : 1 <= n) by (unfold n; destruct (vertices d); [contradiction|cbn; lia]). assert (X : In n (outputs g)).
  { apply network_ends; [exact O|apply node_iff; lia|]. destruct (outs g n) as [|c l] eqn:E; [reflexivity|]. assert (I : In c (outs g n)) by (rewrite E; now left). apply in_outs in I as [I1 I2]. apply conn_range in I1. lia. }
  intros E. rewrite E in X. destruct X.
Qed.
End Graph.
