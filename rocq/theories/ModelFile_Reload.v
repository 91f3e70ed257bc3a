(** A description made depth first is read back as it was. *)
From Coq Require Import Ascii String List Bool Arith NArith ZArith Reals Lia Permutation Sorted.
From Verif Require Import Chars Outcome NumText_Model ModelFile_Model ModelFile_Spec ModelFile_Proofs ModelFile_Text ModelFile_Load.
Import ListNotations.
Open Scope nat_scope.

(** ** Order *)
Lemma sorted_same : forall l m, StronglySorted lt l -> StronglySorted lt m -> (forall x, In x l <-> In x m) -> l = m.
Proof.
  induction l as [|a l IH]; intros [|b m] Hl Hm H.
  - reflexivity.
  - exfalso. now apply (proj2 (H b) (or_introl eq_refl)).
  - exfalso. now apply (proj1 (H a) (or_introl eq_refl)).
  - inversion Hl as [|? ? L1 L2]; inversion Hm as [|? ? M1 M2]; subst. rewrite Forall_forall in L2, M2.
    assert (E : a = b).
    { destruct (proj1 (H a) (or_introl eq_refl)) as [E|I]; [now symmetry|]. destruct (proj2 (H b) (or_introl eq_refl)) as [E|J]; [exact E|]. specialize (L2 _ J). specialize (M2 _ I). lia. }
    subst b. f_equal. apply IH; auto. intros x. split; intros I.
    + destruct (proj1 (H x) (or_intror I)) as [<-|J]; [|exact J]. specialize (L2 _ I). lia.
    + destruct (proj2 (H x) (or_intror I)) as [<-|J]; [|exact J]. specialize (M2 _ I). lia.
Qed.
Lemma increasing_sorted : forall l, increasing l -> StronglySorted lt l.
Proof.
  induction l as [|a l IH]; intros H; [constructor|]. constructor.
  - apply IH. intros i j x y L Hi Hj. apply (H (S i) (S j)); auto. lia.
  - apply Forall_forall. intros x I. apply In_nth_error in I as [i I]. apply (H 0 (S i)); auto. lia.
Qed.
Lemma seq_sorted : forall n k, StronglySorted lt (seq k n).
Proof. induction n as [|n IH]; intros k; cbn [seq]; [constructor|]. constructor; [apply IH|]. apply Forall_forall. intros x I%in_seq. lia. Qed.
Lemma filter_sorted : forall f l, StronglySorted lt l -> StronglySorted lt (filter f l).
Proof.
  intros f l H. induction H as [|a l H IH F]; cbn [filter]; [constructor|]. destruct (f a); [|exact IH]. constructor; [exact IH|]. rewrite Forall_forall in *. intros x I. apply filter_In in I as [I _]. auto.
Qed.
Lemma sorted_nodup : forall l, StronglySorted lt l -> NoDup l.
Proof. intros l H. induction H as [|a l H IH F]; constructor; [|exact IH]. rewrite Forall_forall in F. intros I. specialize (F _ I). lia. Qed.

(** ** Part of a description *)
Definition cut (k : nat) (d : dsl) : dsl :=
  {| optimizer := optimizer d; learningRate := learningRate d; biasLearningRate := biasLearningRate d; loss := loss d;
     vertices := map (fun v => with_edges (filter (fun e => e <=? k) (edges v)) v) (firstn k (vertices d));
     inputReceptors := filter (fun e => e <=? k) (inputReceptors d) |}.
Lemma cut_length : forall k d, k <= length (vertices d) -> length (vertices (cut k d)) = k.
Proof. intros k d H. unfold cut. cbn [vertices]. rewrite map_length, firstn_length. lia. Qed.
Lemma nth_firstn : forall (A : Type) k (l : list A) i, nth_error (firstn k l) i = if i <? k then nth_error l i else None.
Proof.
  induction k as [|k IH]; intros l i; [destruct i; reflexivity|]. destruct l as [|a l]; [rewrite firstn_nil; destruct i as [|i]; cbn [nth_error]; [reflexivity|now destruct (S i <? S k)]|].
  destruct i as [|i]; cbn [firstn nth_error]; [reflexivity|]. rewrite IH. reflexivity.
Qed.
Lemma cut_nth : forall k d i, nth_error (vertices (cut k d)) i = if i <? k then option_map (fun v => with_edges (filter (fun e => e <=? k) (edges v)) v) (nth_error (vertices d) i) else None.
Proof. intros k d i. unfold cut. cbn [vertices]. rewrite nth_error_map, nth_firstn. now destruct (i <? k). Qed.
Lemma filter_le_seq : forall (f : nat -> bool) n k, k <= n -> filter (fun e => e <=? k) (filter f (seq 1 n)) = filter f (seq 1 k).
Proof.
  intros f n k H. apply sorted_same; [apply filter_sorted, filter_sorted, seq_sorted|apply filter_sorted, seq_sorted|]. intros x. rewrite !filter_In, !in_seq, Nat.leb_le. intuition lia.
Qed.
Lemma filter_le_adopted : forall ps n k i, k <= n -> filter (fun e => e <=? k) (adopted ps n i) = adopted ps k i.
Proof.
  intros ps n k i H. induction n as [|n IH]; [assert (k = 0) as -> by lia; reflexivity|].
  assert (A : forall m, adopted ps (S m) i = adopted ps m i ++ repeat (S m) (count_occ Nat.eq_dec (nth m ps []) i)).
  { intros m. unfold adopted. rewrite seq_S, flat_map_app. f_equal. cbn [flat_map]. rewrite app_nil_r. cbn [Nat.add]. now replace (S m - 1) with m by lia. }
  destruct (Nat.eq_dec k (S n)) as [->|N].
  - assert (G : forall m l, (forall x, In x l -> x <= m) -> filter (fun e => e <=? m) l = l).
    { clear. intros m. induction l as [|x l IH]; intros H; [reflexivity|]. cbn [filter]. rewrite (proj2 (Nat.leb_le x m)) by (apply H; now left). f_equal. apply IH. intros y I. apply H. now right. }
    apply G. intros x I. apply in_adopted in I. lia.
  - rewrite A, filter_app, IH by lia. replace (filter (fun e => e <=? k) (repeat (S n) (count_occ Nat.eq_dec (nth n ps []) i))) with (@nil nat); [now rewrite app_nil_r|].
    induction (count_occ Nat.eq_dec (nth n ps []) i) as [|c IHc]; [reflexivity|]. cbn [repeat filter]. destruct (Nat.leb_spec (S n) k); [lia|exact IHc].
Qed.
Lemma adopted_S : forall ps m i, adopted ps (S m) i = adopted ps m i ++ repeat (S m) (count_occ Nat.eq_dec (nth m ps []) i).
Proof. intros ps m i. unfold adopted. rewrite seq_S, flat_map_app. f_equal. cbn [flat_map]. rewrite app_nil_r. cbn [Nat.add]. now replace (S m - 1) with m by lia. Qed.
Lemma dsl_ext : forall a b : dsl, (optimizer a, learningRate a, biasLearningRate a, loss a) = (optimizer b, learningRate b, biasLearningRate b, loss b) -> (forall i, nth_error (vertices a) i = nth_error (vertices b) i) -> inputReceptors a = inputReceptors b -> a = b.
Proof. intros [o1 r1 b1 l1 v1 i1] [o2 r2 b2 l2 v2 i2] H V I. cbn in *. injection H as -> -> -> ->. apply list_ext in V. now subst. Qed.

(** ** One vertex *)
Fixpoint set_all (ss : list setting) (v : vertex) : outcome vertex := match ss with [] => Ok v | s :: ss => do v <- set_vertex s v; set_all ss v end.
Lemma update_update : forall (A : Type) (a b : A) l n, update n (fun _ => b) (update n (fun _ => a) l) = update n (fun _ => b) l.
Proof. intros A a b l n. apply list_ext. intros i. rewrite !nth_update. destruct (Nat.eqb i n); [|reflexivity]. now destruct (nth_error l i). Qed.
Lemma update_same : forall (A : Type) (a : A) l n, nth_error l n = Some a -> update n (fun _ => a) l = l.
Proof. intros A a l n H. apply list_ext. intros i. rewrite nth_update. destruct (Nat.eqb_spec i n) as [->|]; [|reflexivity]. now rewrite H. Qed.
Lemma change_all_ok : forall ss id d v0 v1, vertex_at d id = Ok v0 -> set_all ss v0 = Ok v1 -> change_all ss id d = Ok (with_vertices d (update (id - 1) (fun _ => v1) (vertices d))).
Proof.
  induction ss as [|s ss IH]; intros id d v0 v1 H H1; cbn [set_all change_all] in *.
  - injection H1 as <-. apply vertex_at_ok in H as [_ H]. rewrite update_same by exact H. now destruct d.
  - destruct (set_vertex s v0) as [v2| |] eqn:E; cbn [obind] in H1; try discriminate. unfold change at 1. rewrite H. cbn [obind]. rewrite E. cbn [obind]. apply vertex_at_ok in H as [Hid H].
    rewrite (IH id _ v2 v1); [|apply vertex_at_ok|exact H1].
    + cbn [with_vertices vertices optimizer learningRate biasLearningRate loss inputReceptors]. now rewrite update_update.
    + cbn [with_vertices vertices]. rewrite length_update, nth_update, Nat.eqb_refl, H. now split.
Qed.
Lemma settings_restore : forall v v0, core v0 = core v -> flags_ok v -> set_all (settings v) v0 = Ok (with_edges (edges v0) v).
Proof.
  intros [t a i o m ub bt ins out fl ks l2 nm cl th dr rs es] [t' a' i' o' m' ub' bt' ins' out' fl' ks' l2' nm' cl' th' dr' rs' es'] C F.
  unfold core in C. cbn in C. injection C as -> -> -> -> -> -> -> ->. unfold flags_ok in F. cbn in F. unfold settings, set_all.
  destruct F as [F|(F1 & F2 & F3 & F4)]; [|subst]; cbn; rewrite ?F, ?andb_false_r; cbn; rewrite ?F, ?andb_false_r; cbn; rewrite ?F, ?andb_false_r; cbn; rewrite ?F, ?andb_false_r; reflexivity.
Qed.
Section Reload.
Context (ps : list (list nat)) (d : dsl) (D : described ps d) (HF : Forall flags_ok (vertices d)) (HK : Forall unfiltered_ok (vertices d)) (HC : Forall (fun v => construct v = Ok tt) (vertices d)).
Local Notation n := (length (vertices d)).
Lemma shape_cut : forall k p, k <= n -> 1 <= p <= k -> shape_at (vertices (cut k d)) p = shape_at (vertices d) p.
Proof.
  intros k p Hk Hp. unfold shape_at. rewrite cut_nth. destruct (Nat.ltb_spec (p - 1) k); [|lia]. destruct (nth_error (vertices d) (p - 1)) as [v|]; [|reflexivity]. cbn [option_map].
  pose proof (core_edges (filter (fun e => e <=? k) (edges v)) v) as C. unfold core in C. now injection C.
Qed.
Lemma cut_step : forall k v v0, nth_error (vertices d) k = Some v -> core v0 = core v -> edges v0 = [] ->
  change_all (settings v) (S k) (added v0 (nth k ps []) (cut k d)) = Ok (cut (S k) d).
Proof.
  intros k v v0 Hv C E0. assert (Hk : k < n) by (apply nth_error_Some; congruence). destruct D as [D1 D2 D3 D4 D5].
  assert (FP : Forall (fun p => 1 <= p <= length (vertices (cut k d))) (nth k ps [])) by (rewrite cut_length by lia; apply Forall_forall; intros p I; exact (D4 _ _ I)).
  destruct (added_vertices v0 (nth k ps []) (cut k d) FP E0) as (L & O & V1 & V2 & R). rewrite cut_length in L, V1, V2 by lia.
  assert (Fv : flags_ok v) by (rewrite Forall_forall in HF; apply HF; eapply nth_error_In; exact Hv).
  rewrite (change_all_ok _ _ _ v0 (with_edges [] v)).
  - f_equal. replace (S k - 1) with k by lia. apply dsl_ext; cbn [with_vertices optimizer learningRate biasLearningRate loss vertices inputReceptors].
    + rewrite O. reflexivity.
    + intros i. rewrite nth_update, cut_nth. destruct (Nat.eqb_spec i k) as [->|N].
      * rewrite V2. destruct (Nat.ltb_spec k (S k)); [|lia]. rewrite Hv. cbn [option_map]. do 2 f_equal. rewrite (D2 _ _ Hv), filter_le_adopted by lia. symmetry. unfold adopted.
        destruct (adopted ps (S k) (S k)) as [|w l] eqn:E; [exact E|]. assert (I : In w (adopted ps (S k) (S k))) by (rewrite E; now left). apply in_adopted in I as [W I]. specialize (D4 _ _ I). lia.
      * destruct (Nat.ltb_spec i (S k)) as [Hi|Hi].
        -- rewrite V1 by lia. rewrite cut_nth. destruct (Nat.ltb_spec i k); [|lia]. destruct (nth_error (vertices d) i) as [u|] eqn:Eu; [|reflexivity]. cbn [option_map]. rewrite edges_with, with_with. do 2 f_equal.
           rewrite (D2 _ _ Eu), !filter_le_adopted by lia. rewrite adopted_S. unfold next_id. rewrite cut_length by lia. reflexivity.
        -- apply nth_error_None. rewrite L. lia.
    + rewrite R. cbn [cut inputReceptors]. rewrite D3, !filter_le_seq by lia. rewrite seq_S, filter_app. cbn [filter Nat.add]. 
      assert (AC : accepting (vertices d) (S k) = acceptsInput v) by (unfold accepting; replace (S k - 1) with k by lia; now rewrite Hv). rewrite AC.
      assert (A : acceptsInput v0 = acceptsInput v) by (unfold core in C; now injection C). rewrite A. unfold next_id. rewrite cut_length by lia. destruct (acceptsInput v); [reflexivity|now rewrite app_nil_r].
  - apply vertex_at_ok. rewrite L. split; [lia|]. now replace (S k - 1) with k by lia.
  - rewrite settings_restore by assumption. now rewrite E0.
Qed.
Definition known (k : nat) : list (N * nat) := keyed (fun i => i) (seq 1 k).
Lemma all_parents_keyed : forall id k l, all_parents (N.of_nat id) (keyed (fun u => map N.of_nat (edges_at d u)) l) (known k) =
  let ps := filter (fun u => existsb (Nat.eqb id) (edges_at d u)) l in
  if forallb (fun u => (1 <=? u) && (u <=? k)) ps then Some ps else None.
Proof.
  intros id k l. induction l as [|u l IH]; [reflexivity|]. unfold keyed in *. cbn [map all_parents filter].
  assert (X : existsb (N.eqb (N.of_nat id)) (map N.of_nat (edges_at d u)) = existsb (Nat.eqb id) (edges_at d u)).
  { clear. induction (edges_at d u) as [|e es IH]; [reflexivity|]. cbn [map existsb]. rewrite IH. f_equal. destruct (Nat.eqb_spec id e), (N.eqb_spec (N.of_nat id) (N.of_nat e)); try reflexivity; lia. }
  rewrite X. destruct (existsb (Nat.eqb id) (edges_at d u)); [|exact IH]. cbv zeta in *. cbn [forallb]. unfold known at 1. rewrite find_keyed.
  destruct (existsb (Nat.eqb u) (seq 1 k)) eqn:Y.
  - apply existsb_seq in Y. destruct (Nat.leb_spec 1 u); [|lia]. destruct (Nat.leb_spec u k); [|lia]. cbn [andb]. rewrite IH. now destruct (forallb _ _).
  - assert (Z : ~ (1 <= u <= k)) by (rewrite <- existsb_seq; congruence). destruct (Nat.leb_spec 1 u); cbn [andb]; [destruct (Nat.leb_spec u k); [lia|reflexivity]|reflexivity].
Qed.
Lemma parents_listed : forall i, i < n -> increasing (nth i ps []) -> filter (fun u => existsb (Nat.eqb (S i)) (edges_at d u)) (filter (feeding d) (seq 1 n)) = nth i ps [].
Proof.
  intros i Hi Hinc. destruct D as [D1 D2 D3 D4 D5]. apply sorted_same; [apply filter_sorted, filter_sorted, seq_sorted|now apply increasing_sorted|]. intros u. rewrite !filter_In, in_seq, existsb_In.
  assert (Q : 1 <= u <= n -> In (S i) (edges_at d u) <-> In u (nth i ps [])).
  { intros Hu. unfold edges_at. destruct (nth_error (vertices d) (u - 1)) as [x|] eqn:Ex; [|apply nth_error_None in Ex; lia]. rewrite (D2 _ _ Ex), in_adopted. replace (S (u - 1)) with u by lia. replace (S i - 1) with i by lia. intuition lia. }
  split.
  - intros [[Hu _] I]. apply Q; [lia|exact I].
  - intros I. assert (Hu := D4 _ _ I). assert (J : In (S i) (edges_at d u)) by (apply Q; [lia|exact I]). split; [|exact J]. split; [lia|]. unfold feeding. destruct (edges_at d u); [contradiction J|reflexivity].
Qed.
(** The vertex after the first [k] is made again from them. *)
Lemma create_next : forall k v parent, nth_error (vertices d) k = Some v -> increasing (nth k ps []) ->
  (acceptsInput v = false -> parent = nth_error (nth k ps []) (length (nth k ps []) - 1)) -> (acceptsInput v = false -> nth k ps [] <> []) ->
  exists v0, create_one (N.of_nat (S k)) (with_edges [] v) parent (emap d) (cut k d) (known k) = Ok (Some (added v0 (nth k ps []) (cut k d))) /\ core v0 = core v /\ edges v0 = [].
Proof.
  intros k v parent Hv Hinc Hpar Hne. assert (Hk : k < n) by (apply nth_error_Some; congruence). pose proof (de_origin _ _ D _ _ Hv) as O. pose proof (de_before _ _ D k) as B.
  assert (Cv : construct v = Ok tt) by (rewrite Forall_forall in HC; apply HC; eapply nth_error_In; exact Hv).
  assert (Kv : unfiltered_ok v) by (rewrite Forall_forall in HK; apply HK; eapply nth_error_In; exact Hv).
  assert (CE := core_edges [] v). unfold core in CE. injection CE as E1 E2 E3 E4 E5 E6 E7 E8. unfold create_one. rewrite E1, E2, E3, E4, E5, E6, E7, E8. clear E1 E2 E3 E4 E5 E6 E7 E8.
  assert (RP : forall i g, filters v = 0%N -> inputShapes v = [i] -> acceptsInput v = g -> exists v0, new_plain (node_type v) i (outputShape v) (producesOutput v) g (activation_type v) = Ok v0 /\ core v0 = core v /\ edges v0 = [] /\ acceptsInput v0 = g).
  { intros i g Z I A. destruct (Kv Z) as [K1 K2]. unfold new_plain. destruct (producesOutput v) eqn:Po.
    - rewrite (K2 eq_refl). cbn. eexists. split; [reflexivity|]. split; [|now split]. unfold core. cbn. rewrite (K2 eq_refl), Po, Z, K1, I, A. reflexivity.
    - cbn. eexists. split; [reflexivity|]. split; [|now split]. unfold core. cbn. rewrite Po, Z, K1, I, A. reflexivity. }
  assert (RF : forall i g v0, new_filters (node_type v) i (filters v) (kernel_size v) (producesOutput v) g (activation_type v) = Ok v0 -> edges v0 = [] /\ acceptsInput v0 = g /\ inputShapes v0 = [i]).
  { intros i g v0 N. apply new_filters_ok in N as (_ & I & _ & _ & _ & A & _ & E & _). auto. }
  destruct O as [i v0 P A N C|i v0 P A N C|p i v0 P A N C|p v0 P A N C|A C].
  - rewrite A, P in *. assert (C' := C). unfold core in C'. injection C' as C1 C2 C3 C4 C5 C6 C7 C8. apply new_plain_ok in N as N'. destruct N' as (N1 & N2 & N3 & N4 & N5 & N6 & N7 & N8 & N9 & N10).
    rewrite <- C5, N2, <- C7, N8. cbn [N.ltb N.compare]. exists v0. unfold add_input. rewrite N. cbn [obind omap]. split; [|split; [exact C|exact N7]]. unfold added. rewrite N5. reflexivity.
  - rewrite A, P in *. assert (C' := C). unfold core in C'. injection C' as C1 C2 C3 C4 C5 C6 C7 C8. destruct (RF _ _ _ N) as (F1 & F2 & F3). rewrite <- C5, F3. destruct (N.ltb_spec 0 (filters v)) as [Z|Z].
    + exists v0. unfold add_input_filters. rewrite N. cbn [obind omap]. split; [|split; [exact C|exact F1]]. unfold added. rewrite F2. reflexivity.
    + destruct (RP i true ltac:(lia) ltac:(congruence) eq_refl) as (v1 & R1 & R2 & R3 & R4). exists v1. unfold add_input. rewrite R1. cbn [obind omap]. split; [|split; [exact R2|exact R3]]. unfold added. rewrite R4. reflexivity.
  - rewrite A. rewrite Hpar by exact A. rewrite P in *. cbn [length Nat.sub nth_error]. assert (C' := C). unfold core in C'. injection C' as C1 C2 C3 C4 C5 C6 C7 C8.
    apply new_plain_ok in N as N'. destruct N' as (N1 & N2 & N3 & N4 & N5 & N6 & N7 & N8 & N9 & N10). assert (Ins : inputShapes v = [i]) by congruence.
    assert (NC : layer_eqb (node_type v) concatenate = false). { unfold construct in Cv. rewrite Ins in Cv. destruct (node_type v); try reflexivity. destruct i as [[? ?] ?]. discriminate. }
    assert (NO : producesOutput v && negb (layer_eqb (node_type v) full) = false). { unfold new_plain in N. now destruct (producesOutput v && negb (layer_eqb (node_type v) full)). }
    rewrite NC, NO, Ins, <- C7, N8. cbn [N.ltb N.compare]. exists v0. unfold add_layer. assert (Hp := B p (or_introl eq_refl)).
    destruct (vertex_at (cut k d) p) as [pv| |] eqn:Ep; [|exfalso|exfalso].
    + cbn [obind]. rewrite N. cbn [obind omap]. split; [|split; [exact C|exact N7]]. unfold added. rewrite N5. reflexivity.
    + unfold vertex_at, vec_at in Ep. destruct (Nat.eqb_spec p 0); [lia|]. destruct (nth_error (vertices (cut k d)) (p - 1)); discriminate Ep.
    + unfold vertex_at, vec_at in Ep. destruct (Nat.eqb_spec p 0); [lia|]. destruct (nth_error (vertices (cut k d)) (p - 1)) eqn:X; [discriminate Ep|]. apply nth_error_None in X. rewrite cut_length in X by lia. lia.
  - rewrite A. rewrite Hpar by exact A. rewrite P in *. cbn [length Nat.sub nth_error]. assert (C' := C). unfold core in C'. injection C' as C1 C2 C3 C4 C5 C6 C7 C8.
    destruct (RF _ _ _ N) as (F1 & F2 & F3). assert (Ins : inputShapes v = [shape_at (vertices d) p]) by congruence. assert (Hp := B p (or_introl eq_refl)).
    assert (NC : layer_eqb (node_type v) concatenate = false). { unfold construct in Cv. rewrite Ins in Cv. destruct (node_type v); try reflexivity. destruct (shape_at (vertices d) p) as [[? ?] ?]. discriminate. }
    assert (VP : exists pv, vertex_at (cut k d) p = Ok pv /\ outputShape pv = shape_at (vertices d) p).
    { rewrite <- (shape_cut k) by lia. unfold shape_at. destruct (nth_error (vertices (cut k d)) (p - 1)) as [pv|] eqn:X; [|apply nth_error_None in X; rewrite cut_length in X by lia; lia].
      exists pv. split; [|reflexivity]. apply vertex_at_ok. rewrite cut_length by lia. split; [lia|exact X]. }
    destruct VP as (pv & VP & SP). rewrite NC. destruct (N.ltb_spec 0 (filters v)) as [Z|Z].
    + exists v0. unfold add_filters. rewrite VP. cbn [obind]. rewrite SP, N. cbn [obind omap]. split; [|split; [exact C|exact F1]]. unfold added. rewrite F2. reflexivity.
    + destruct (RP _ false ltac:(lia) Ins A) as (v1 & R1 & R2 & R3 & R4). exists v1.
      assert (NO : producesOutput v && negb (layer_eqb (node_type v) full) = false). { unfold new_plain in R1. now destruct (producesOutput v && negb (layer_eqb (node_type v) full)). }
      rewrite NO, Ins. unfold add_layer. rewrite VP. cbn [obind]. rewrite R1. cbn [obind omap]. split; [|split; [exact R2|exact R3]]. unfold added. rewrite R4. reflexivity.
  - rewrite A. assert (C' := C). unfold core in C'. cbn [new_concat node_type activation_type acceptsInput producesOutput inputShapes outputShape filters kernel_size] in C'. injection C' as C1 C2 C3 C4 C5 C6 C7 C8.
    rewrite Hpar by exact A. destruct (nth_error (nth k ps []) (length (nth k ps []) - 1)) as [p|] eqn:Ep.
    2:{ exfalso. apply nth_error_None in Ep. specialize (Hne A). destruct (nth k ps []); [now apply Hne|cbn in Ep; lia]. }
    rewrite <- C1. cbn [layer_eqb]. unfold emap. rewrite all_parents_keyed, parents_listed by assumption. cbv zeta.
    assert (FB : forallb (fun u => (1 <=? u) && (u <=? k)) (nth k ps []) = true). { apply forallb_forall. intros u Hu. specialize (B _ Hu). apply andb_true_iff. rewrite !Nat.leb_le. lia. }
    rewrite FB. unfold add_concatenated.
    assert (OM : forall l, (forall u, In u l -> 1 <= u <= k) -> exists vs, omapM (vertex_at (cut k d)) l = Ok vs).
    { induction l as [|u l IH]; intros Hl; [now exists []|]. cbn [omapM]. specialize (Hl u) as Hu. destruct (Hu (or_introl eq_refl)) as [U1 U2].
      destruct (nth_error (vertices (cut k d)) (u - 1)) as [pv|] eqn:X; [|apply nth_error_None in X; rewrite cut_length in X by lia; lia].
      assert (VA : vertex_at (cut k d) u = Ok pv) by (apply vertex_at_ok; rewrite cut_length by lia; split; [lia|exact X]). rewrite VA. cbn [obind].
      destruct IH as [vs IH]; [intros x Hx; apply Hl; now right|]. rewrite IH. cbn [obind]. eauto. }
    destruct (OM (nth k ps [])) as [vs OV]. { intros u Hu. exact (B _ Hu). }
    rewrite OV. cbn [obind omap]. destruct (omapM_vertices _ _ _ OV) as [_ M]. cbv zeta. rewrite M.
    assert (M2 : map (shape_at (vertices (cut k d))) (nth k ps []) = map (shape_at (vertices d)) (nth k ps [])) by (apply map_ext_in; intros u Hu; apply shape_cut; [lia|exact (B _ Hu)]).
    rewrite M2. exists (new_concat (map (shape_at (vertices d)) (nth k ps [])) (1, joined_width (map (shape_at (vertices d)) (nth k ps [])), 1)%N). split; [reflexivity|]. split; [exact C|reflexivity].
Qed.
(** A concatenation one of whose parents is not made yet waits. *)
Lemma create_waits : forall k i v p u, nth_error (vertices d) i = Some v -> increasing (nth i ps []) -> acceptsInput v = false -> In p (nth i ps []) -> In u (nth i ps []) -> p <> u -> k < u ->
  create_one (N.of_nat (S i)) (with_edges [] v) (Some p) (emap d) (cut k d) (known k) = Ok None.
Proof.
  intros k i v p u Hv Hinc A Ip Iu Npu Hu. assert (Hi : i < n) by (apply nth_error_Some; congruence). pose proof (de_origin _ _ D _ _ Hv) as O.
  assert (CE := core_edges [] v). unfold core in CE. injection CE as E1 E2 E3 E4 E5 E6 E7 E8. unfold create_one. rewrite E1, E3, A. clear E1 E2 E3 E4 E5 E6 E7 E8.
  destruct O as [j v0 P A' N C|j v0 P A' N C|q j v0 P A' N C|q v0 P A' N C|A' C]; try congruence.
  - rewrite P in Ip, Iu. destruct Ip as [<-|[]], Iu as [<-|[]]. congruence.
  - rewrite P in Ip, Iu. destruct Ip as [<-|[]], Iu as [<-|[]]. congruence.
  - assert (C1 : node_type v = concatenate) by (unfold core in C; now injection C). rewrite C1. cbn [layer_eqb]. unfold emap. rewrite all_parents_keyed, parents_listed by assumption. cbv zeta.
    destruct (forallb (fun x => (1 <=? x) && (x <=? k)) (nth i ps [])) eqn:F; [|reflexivity]. exfalso. rewrite forallb_forall in F. specialize (F _ Iu). apply andb_true_iff in F as [_ F]. apply Nat.leb_le in F. lia.
Qed.
End Reload.
