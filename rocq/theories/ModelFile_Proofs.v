(** What a sequence of calls leads to. *)
From Coq Require Import Ascii String List Bool Arith NArith ZArith Reals Lia Lra Permutation.
From Flocq Require Import Core.
From Verif Require Import Chars Outcome Delimited_Model NumText_Model NumText_Proofs ModelFile_Model ModelFile_Spec.
Import ListNotations.
Open Scope nat_scope.

(** ** Lists *)
Lemma list_ext : forall (A : Type) (l m : list A), (forall i, nth_error l i = nth_error m i) -> l = m.
Proof.
  induction l as [|a l IH]; intros [|b m] H; [reflexivity|specialize (H 0); discriminate|specialize (H 0); discriminate|].
  pose proof (H 0) as H0. injection H0 as ->. f_equal. apply IH. intros i. exact (H (S i)).
Qed.
Lemma nth_update : forall (A : Type) (f : A -> A) l n i, nth_error (update n f l) i = if Nat.eqb i n then option_map f (nth_error l i) else nth_error l i.
Proof.
  induction l as [|a l IH]; intros n i; cbn [update].
  - destruct n as [|n], i as [|i]; cbn; try reflexivity; now destruct (Nat.eqb i n).
  - destruct n as [|n], i as [|i]; cbn [nth_error Nat.eqb option_map]; try reflexivity. apply IH.
Qed.
Lemma length_update : forall (A : Type) (f : A -> A) l n, length (update n f l) = length l.
Proof. induction l as [|a l IH]; intros [|n]; cbn [update length]; congruence. Qed.

(** ** Vertices *)
Definition core (v : vertex) := (node_type v, activation_type v, acceptsInput v, producesOutput v, inputShapes v, outputShape v, filters v, kernel_size v).
Definition flags_ok (v : vertex) : Prop :=
  weighted (node_type v) = true \/ (materialized v = false /\ use_bias v = false /\ use_l2_regularization v = false /\ use_normalization v = false).
Record machine (v : vertex) : Prop := {
  ma_ins : Forall size64 (inputShapes v); ma_count : (N.of_nat (length (inputShapes v)) < 2 ^ 64)%N; ma_out : size64 (outputShape v);
  ma_filters : (filters v < 2 ^ 64)%N; ma_kernel : (kernel_size v < 2 ^ 64)%N; ma_bits : (bits v < 256)%N;
  ma_threshold : fits15 (norm_clipping_threshold v); ma_rate : fits15 (dropout_rate v); ma_strength : fits15 (regularization_strength v) }.
Lemma core_edges : forall es v, core (with_edges es v) = core v.
Proof. now intros es []. Qed.
Lemma edges_with : forall es v, edges (with_edges es v) = es.
Proof. now intros es []. Qed.
Lemma with_with : forall es es' v, with_edges es (with_edges es' v) = with_edges es v.
Proof. now intros es es' []. Qed.
Lemma with_own : forall v, with_edges (edges v) v = v.
Proof. now intros []. Qed.
Lemma core_set : forall s v v', set_vertex s v = Ok v' -> core v' = core v /\ edges v' = edges v.
Proof.
  intros s [t a i o m ub bt ins out fl ks l2 nm cl th dr rs es] v' H. destruct s as [b|x|b|b|n|b|b|x|x]; cbn in H;
    try (destruct (b && negb (weighted t))); try discriminate; injection H as <-; split; reflexivity.
Qed.
Lemma flags_set : forall s v v', set_vertex s v = Ok v' -> flags_ok v -> flags_ok v'.
Proof.
  intros s [t a i o m ub bt ins out fl ks l2 nm cl th dr rs es] v' H F. unfold flags_ok in *. cbn in F. destruct s as [b|x|b|b|n|b|b|x|x]; cbn in H.
  all: try (destruct (weighted t) eqn:W; [|destruct b; cbn in H; try discriminate]; cbn in H); try (destruct b; cbn in H).
  all: injection H as <-; cbn; auto; try tauto.
  all: try (now left); destruct F as [F|(F1 & F2 & F3 & F4)]; try congruence; right; tauto.
Qed.
Lemma machine_set : forall s id v v', set_vertex s v = Ok v' -> machine_values (Change s id) -> machine v -> machine v'.
Proof.
  intros s id [t a i o m ub bt ins out fl ks l2 nm cl th dr rs es] v' H V [M1 M2 M3 M4 M5 M6 M7 M8 M9]. cbn in *. destruct s as [b|x|b|b|n|b|b|x|x]; cbn in H, V;
    try (destruct (b && negb (weighted t))); try discriminate; injection H as <-; constructor; assumption.
Qed.
Lemma flags_edges : forall es v, flags_ok v -> flags_ok (with_edges es v).
Proof. now intros es []. Qed.
Lemma machine_edges : forall es v, machine v -> machine (with_edges es v).
Proof. intros es [] []. now constructor. Qed.

(** ** Edges *)
Definition adopted (ps : list (list nat)) (n i : nat) : list nat := flat_map (fun w => repeat w (count_occ Nat.eq_dec (nth (w - 1) ps []) i)) (seq 1 n).
Lemma adopted_snoc : forall ps pl i, adopted (ps ++ [pl]) (S (length ps)) i = adopted ps (length ps) i ++ repeat (S (length ps)) (count_occ Nat.eq_dec pl i).
Proof.
  intros ps pl i. unfold adopted. rewrite seq_S, flat_map_app. f_equal.
  - rewrite !flat_map_concat_map. f_equal. apply map_ext_in. intros w Hw%in_seq. rewrite app_nth1 by lia. reflexivity.
  - cbn [flat_map]. rewrite app_nil_r. f_equal. rewrite app_nth2 by lia. now replace (1 + length ps - 1 - length ps) with 0 by lia.
Qed.
Lemma in_adopted : forall ps n i w, In w (adopted ps n i) <-> 1 <= w <= n /\ In i (nth (w - 1) ps []).
Proof.
  intros ps n i w. unfold adopted. rewrite in_flat_map. split.
  - intros (x & Hx & R). apply in_seq in Hx. pose proof (repeat_spec _ _ _ R) as ->. split; [lia|]. apply (count_occ_In Nat.eq_dec). destruct (count_occ _ _ _); [contradiction R|lia].
  - intros [Hw I]. exists w. split; [apply in_seq; lia|]. apply (count_occ_In Nat.eq_dec) in I. destruct (count_occ _ _ _); [lia|now left].
Qed.
Lemma add_edges : forall ps w d, Forall (fun p => 1 <= p) ps ->
  let d' := fold_left (fun d' p => add_edge p w d') ps d in
  length (vertices d') = length (vertices d) /\ inputReceptors d' = inputReceptors d /\
  (optimizer d', learningRate d', biasLearningRate d', loss d') = (optimizer d, learningRate d, biasLearningRate d, loss d) /\
  forall i, nth_error (vertices d') i = option_map (fun v => with_edges (edges v ++ repeat w (count_occ Nat.eq_dec ps (S i))) v) (nth_error (vertices d) i).
Proof.
  induction ps as [|p ps IH]; intros w d F; cbn [fold_left].
  - repeat split. intros i. cbn [count_occ repeat]. destruct (nth_error (vertices d) i) as [v|]; [|reflexivity]. cbn [option_map]. now rewrite app_nil_r, with_own.
  - inversion F as [|? ? P F']; subst. specialize (IH w (add_edge p w d) F'). cbv zeta in *. destruct IH as (L & R & O & N). rewrite L, R, O. unfold add_edge, with_vertices. cbn.
    rewrite length_update. repeat split. intros i. rewrite N. unfold add_edge, with_vertices. cbn [vertices]. rewrite nth_update. cbn [count_occ].
    destruct (Nat.eq_dec p (S i)) as [->|E].
    + replace (S i - 1) with i by lia. rewrite Nat.eqb_refl. destruct (nth_error (vertices d) i) as [v|]; [|reflexivity]. cbn [option_map repeat]. rewrite edges_with, with_with, <- app_assoc. reflexivity.
    + destruct (Nat.eqb_spec i (p - 1)); [lia|]. reflexivity.
Qed.

(** ** The state after some calls *)
Definition shape_at (vs : list vertex) (p : nat) : N * N * N := match nth_error vs (p - 1) with Some v => outputShape v | None => (0, 0, 0)%N end.
Definition joined_width (shapes : list (N * N * N)) : N := fold_left (fun sum s => ((sum + width s) mod two64)%N) shapes 0%N.
Inductive origin (vs : list vertex) (pl : list nat) (v : vertex) : Prop :=
| from_input : forall i v0, pl = [] -> acceptsInput v = true -> new_plain (node_type v) i (outputShape v) (producesOutput v) true (activation_type v) = Ok v0 -> core v0 = core v -> origin vs pl v
| from_filtered_input : forall i v0, pl = [] -> acceptsInput v = true -> new_filters (node_type v) i (filters v) (kernel_size v) (producesOutput v) true (activation_type v) = Ok v0 -> core v0 = core v -> origin vs pl v
| from_layer : forall p i v0, pl = [p] -> acceptsInput v = false -> new_plain (node_type v) i (outputShape v) (producesOutput v) false (activation_type v) = Ok v0 -> core v0 = core v -> origin vs pl v
| from_filters : forall p v0, pl = [p] -> acceptsInput v = false -> new_filters (node_type v) (shape_at vs p) (filters v) (kernel_size v) (producesOutput v) false (activation_type v) = Ok v0 -> core v0 = core v -> origin vs pl v
| from_join : acceptsInput v = false -> core (new_concat (map (shape_at vs) pl) (1, joined_width (map (shape_at vs) pl), 1)%N) = core v -> origin vs pl v.
Definition accepting (vs : list vertex) (id : nat) : bool := match nth_error vs (id - 1) with Some v => acceptsInput v | None => false end.
Record described (ps : list (list nat)) (d : dsl) : Prop := {
  de_count : length ps = length (vertices d);
  de_edges : forall i v, nth_error (vertices d) i = Some v -> edges v = adopted ps (length (vertices d)) (S i);
  de_heads : inputReceptors d = filter (accepting (vertices d)) (seq 1 (length (vertices d)));
  de_before : forall i p, In p (nth i ps []) -> 1 <= p <= i;
  de_origin : forall i v, nth_error (vertices d) i = Some v -> origin (vertices d) (nth i ps []) v }.

Lemma origin_core : forall vs vs' pl v v', core v = core v' -> (forall p, In p pl -> shape_at vs' p = shape_at vs p) -> origin vs pl v -> origin vs' pl v'.
Proof.
  intros vs vs' pl v v' E S1 O. assert (C := E). unfold core in C. injection C as E1 E2 E3 E4 E5 E6 E7 E8.
  assert (M : map (shape_at vs') pl = map (shape_at vs) pl) by (apply map_ext_in; exact S1).
  destruct O as [i v0 P A N K|i v0 P A N K|p i v0 P A N K|p v0 P A N K|A K].
  - eapply from_input with (i := i) (v0 := v0); try congruence.
  - eapply from_filtered_input with (i := i) (v0 := v0); try congruence.
  - eapply from_layer with (p := p) (i := i) (v0 := v0); try congruence.
  - eapply from_filters with (p := p) (v0 := v0); try congruence. rewrite (S1 p) by (rewrite P; now left). congruence.
  - apply from_join; [congruence|]. rewrite M. congruence.
Qed.
(** Only cores matter for origins and heads. *)
Lemma some_core : forall x y, Some (core x) = Some (core y) -> core x = core y /\ outputShape x = outputShape y /\ acceptsInput x = acceptsInput y.
Proof. intros x y H. assert (C : core x = core y) by congruence. split; [exact C|]. unfold core in C. injection C as C1 C2 C3 C4 C5 C6 C7 C8. now split. Qed.
Definition same_cores (vs vs' : list vertex) : Prop := forall i, option_map core (nth_error vs' i) = option_map core (nth_error vs i).
Lemma same_shape : forall vs vs' p, same_cores vs vs' -> shape_at vs' p = shape_at vs p.
Proof.
  intros vs vs' p H. unfold shape_at. specialize (H (p - 1)). destruct (nth_error vs' (p - 1)), (nth_error vs (p - 1)); cbn [option_map] in H; try discriminate; [|reflexivity].
  apply (some_core _ _ H).
Qed.
Lemma same_accepting : forall vs vs' p, same_cores vs vs' -> accepting vs' p = accepting vs p.
Proof.
  intros vs vs' p H. unfold accepting. specialize (H (p - 1)). destruct (nth_error vs' (p - 1)), (nth_error vs (p - 1)); cbn [option_map] in H; try discriminate; [|reflexivity].
  apply (some_core _ _ H).
Qed.

(** Adding a vertex with its edges. *)
Definition added (v : vertex) (pl : list nat) (d : dsl) : dsl :=
  let d' := fold_left (fun d' p => add_edge p (next_id d) d') pl (add_vertex v d) in
  if acceptsInput v then with_receptors d' (inputReceptors d ++ [next_id d]) else d'.
Lemma added_vertices : forall v pl d, Forall (fun p => 1 <= p <= length (vertices d)) pl -> edges v = [] ->
  length (vertices (added v pl d)) = S (length (vertices d)) /\
  (optimizer (added v pl d), learningRate (added v pl d), biasLearningRate (added v pl d), loss (added v pl d)) = (optimizer d, learningRate d, biasLearningRate d, loss d) /\
  (forall i, i < length (vertices d) -> nth_error (vertices (added v pl d)) i =
     option_map (fun u => with_edges (edges u ++ repeat (next_id d) (count_occ Nat.eq_dec pl (S i))) u) (nth_error (vertices d) i)) /\
  nth_error (vertices (added v pl d)) (length (vertices d)) = Some v /\
  inputReceptors (added v pl d) = if acceptsInput v then inputReceptors d ++ [next_id d] else inputReceptors d.
Proof.
  intros v pl d F Ev. destruct (add_edges pl (next_id d) (add_vertex v d)) as (L & R & O & N). { eapply Forall_impl; [|exact F]. cbn; intros; lia. }
  assert (C0 : count_occ Nat.eq_dec pl (S (length (vertices d))) = 0).
  { apply count_occ_not_In. intros I. rewrite Forall_forall in F. specialize (F _ I). lia. }
  assert (G : exists d', d' = fold_left (fun d' p => add_edge p (next_id d) d') pl (add_vertex v d) /\ added v pl d = if acceptsInput v then with_receptors d' (inputReceptors d ++ [next_id d]) else d').
  { eexists; split; reflexivity. }
  destruct G as (d' & E & G). rewrite <- E in *. rewrite G. unfold add_vertex, with_vertices in L, R, O, N. cbn [vertices inputReceptors optimizer learningRate biasLearningRate loss] in L, R, O, N.
  rewrite app_length in L. cbn [length] in L.
  assert (V : vertices (if acceptsInput v then with_receptors d' (inputReceptors d ++ [next_id d]) else d') = vertices d') by (destruct (acceptsInput v); reflexivity).
  rewrite V. split; [lia|]. split; [destruct (acceptsInput v); exact O|]. split; [|split].
  - intros i Hi. rewrite N, nth_error_app1 by lia. reflexivity.
  - rewrite N, nth_error_app2, Nat.sub_diag by lia. cbn [nth_error option_map]. rewrite C0. cbn [repeat]. rewrite app_nil_r. now rewrite with_own.
  - destruct (acceptsInput v); [reflexivity|exact R].
Qed.
Lemma described_added : forall ps d v pl, described ps d -> Forall (fun p => 1 <= p <= length (vertices d)) pl -> edges v = [] -> origin (vertices d) pl v ->
  described (ps ++ [pl]) (added v pl d).
Proof.
  intros ps d v pl [D1 D2 D3 D4 D5] F Ev O. destruct (added_vertices v pl d F Ev) as (L & _ & V1 & V2 & R). rewrite Forall_forall in F.
  assert (SC : forall i, i < length (vertices d) -> option_map core (nth_error (vertices (added v pl d)) i) = option_map core (nth_error (vertices d) i)).
  { intros i Hi. rewrite V1 by exact Hi. destruct (nth_error (vertices d) i); [cbn [option_map]; now rewrite core_edges|reflexivity]. }
  assert (SS : forall p, 1 <= p <= length (vertices d) -> shape_at (vertices (added v pl d)) p = shape_at (vertices d) p /\ accepting (vertices (added v pl d)) p = accepting (vertices d) p).
  { intros p Hp. specialize (SC (p - 1) ltac:(lia)). unfold shape_at, accepting. destruct (nth_error _ (p - 1)) as [x|], (nth_error (vertices d) (p - 1)) as [y|]; cbn [option_map] in SC; try discriminate; [|now split].
    apply some_core in SC as (_ & S1 & S2). now split. }
  constructor.
  - rewrite app_length, L, D1. cbn [length]. lia.
  - intros i u Hu. rewrite L. rewrite <- D1, adopted_snoc, D1. destruct (Nat.eq_dec i (length (vertices d))) as [->|Hi].
    + rewrite V2 in Hu. injection Hu as <-. rewrite Ev. symmetry.
      assert (C0 : count_occ Nat.eq_dec pl (S (length (vertices d))) = 0) by (apply count_occ_not_In; intros I; specialize (F _ I); lia). rewrite C0. cbn [repeat]. rewrite app_nil_r.
      destruct (adopted ps (length (vertices d)) (S (length (vertices d)))) as [|w l] eqn:E; [reflexivity|].
      assert (I : In w (adopted ps (length (vertices d)) (S (length (vertices d))))) by (rewrite E; now left). apply in_adopted in I. destruct I as [W I]. specialize (D4 _ _ I). lia.
    + assert (i < length (vertices d)) by (assert (i < length (vertices (added v pl d))) by (apply nth_error_Some; congruence); lia).
      rewrite V1 in Hu by assumption. destruct (nth_error (vertices d) i) as [x|] eqn:Ex; [|discriminate]. cbn [option_map] in Hu. injection Hu as <-. rewrite edges_with, (D2 _ _ Ex). reflexivity.
  - rewrite R, L, seq_S, filter_app. cbn [filter]. assert (A : accepting (vertices (added v pl d)) (1 + length (vertices d)) = acceptsInput v).
    { unfold accepting. replace (1 + length (vertices d) - 1) with (length (vertices d)) by lia. now rewrite V2. }
    rewrite A. assert (G : filter (accepting (vertices (added v pl d))) (seq 1 (length (vertices d))) = inputReceptors d).
    { rewrite D3. apply filter_ext_in. intros p Hp%in_seq. apply SS. lia. }
    rewrite G. unfold next_id. destruct (acceptsInput v); [reflexivity|]. now rewrite app_nil_r.
  - intros i p I. destruct (Nat.lt_ge_cases i (length ps)) as [Hi|Hi].
    + rewrite app_nth1 in I by exact Hi. exact (D4 _ _ I).
    + rewrite app_nth2 in I by exact Hi. destruct (i - length ps) as [|k] eqn:Ek; [|destruct k; contradiction I]. cbn [nth] in I. specialize (F _ I). lia.
  - intros i u Hu. destruct (Nat.eq_dec i (length (vertices d))) as [->|Hi].
    + rewrite V2 in Hu. injection Hu as <-. rewrite app_nth2 by lia. replace (length (vertices d) - length ps) with 0 by lia. cbn [nth].
      eapply origin_core; [reflexivity| |exact O]. intros p Ip. apply SS. exact (F _ Ip).
    + assert (Hi' : i < length (vertices d)) by (assert (i < length (vertices (added v pl d))) by (apply nth_error_Some; congruence); lia).
      rewrite app_nth1 by lia. specialize (SC i Hi'). rewrite Hu in SC. destruct (nth_error (vertices d) i) as [x|] eqn:Ex; [|discriminate]. cbn [option_map] in SC.
      apply some_core in SC as (SC & _ & _). apply (origin_core (vertices d)) with (v := x); [symmetry; exact SC| |exact (D5 _ _ Ex)]. intros p Ip. apply SS. specialize (D4 _ _ Ip). lia.
Qed.
Lemma vertex_at_ok : forall d id v, vertex_at d id = Ok v <-> 1 <= id <= length (vertices d) /\ nth_error (vertices d) (id - 1) = Some v.
Proof.
  intros d id v. unfold vertex_at, vec_at. destruct (Nat.eqb_spec id 0) as [->|N]; [split; [discriminate|lia]|].
  destruct (nth_error (vertices d) (id - 1)) as [x|] eqn:E; split; try discriminate.
  - intros [= ->]. split; [|reflexivity]. assert (id - 1 < length (vertices d)) by (apply nth_error_Some; congruence). lia.
  - intros [_ [= ->]]. reflexivity.
  - intros [_ [=]].
Qed.
Lemma described_change : forall ps d s id d', described ps d -> change s id d = Ok d' -> described ps d' /\
  exists v v', nth_error (vertices d) (id - 1) = Some v /\ set_vertex s v = Ok v' /\ vertices d' = update (id - 1) (fun _ => v') (vertices d) /\
    (optimizer d', learningRate d', biasLearningRate d', loss d') = (optimizer d, learningRate d, biasLearningRate d, loss d).
Proof.
  intros ps d s id d' [D1 D2 D3 D4 D5] H. unfold change in H. destruct (vertex_at d id) as [v| |] eqn:E; cbn [obind] in H; try discriminate. apply vertex_at_ok in E as [Hid E].
  destruct (set_vertex s v) as [v'| |] eqn:Es; cbn [obind] in H; try discriminate. injection H as <-. destruct (core_set _ _ _ Es) as [C Ed]. split; [|now exists v, v'].
  assert (SC : same_cores (vertices d) (update (id - 1) (fun _ => v') (vertices d))).
  { intros i. rewrite nth_update. destruct (Nat.eqb_spec i (id - 1)) as [->|]; [|reflexivity]. rewrite E. cbn [option_map]. now rewrite C. }
  constructor; cbn [with_vertices vertices inputReceptors]; rewrite ?length_update; try assumption.
  - intros i u. rewrite nth_update. destruct (Nat.eqb_spec i (id - 1)) as [->|]; [|apply D2]. rewrite E. cbn [option_map]. intros [= <-]. rewrite Ed. now apply D2.
  - rewrite D3. apply filter_ext. intros p. symmetry. now apply same_accepting.
  - intros i u. rewrite nth_update. destruct (Nat.eqb_spec i (id - 1)) as [->|].
    + rewrite E. cbn [option_map]. intros [= <-]. apply (origin_core (vertices d)) with (v := v); [now symmetry| |now apply D5]. intros p _. now apply same_shape.
    + intros Hu. apply (origin_core (vertices d)) with (v := u); [reflexivity| |now apply D5]. intros p _. now apply same_shape.
Qed.

(** Each adding call adds one vertex. *)
Definition is_change (c : call) : Prop := match c with Change _ _ => True | _ => False end.
Definition adds (c : call) : list nat := match c with Add_layer p _ _ _ _ _ | Add_filters p _ _ _ _ _ => [p] | Add_concatenated ps => ps | _ => [] end.
Lemma new_plain_ok : forall t i o f g a v, new_plain t i o f g a = Ok v ->
  node_type v = t /\ inputShapes v = [i] /\ outputShape v = o /\ producesOutput v = f /\ acceptsInput v = g /\ activation_type v = a /\ edges v = [] /\ filters v = 0%N /\ kernel_size v = 0%N /\ flags_ok v.
Proof.
  intros t i o f g a v H. unfold new_plain in H. destruct (f && negb (layer_eqb t full)); [discriminate|]. injection H as <-. repeat split. unfold flags_ok. cbn. destruct t; cbn; auto.
Qed.
Lemma new_filters_ok : forall t i n k f g a v, new_filters t i n k f g a = Ok v ->
  node_type v = t /\ inputShapes v = [i] /\ filters v = n /\ kernel_size v = k /\ producesOutput v = f /\ acceptsInput v = g /\ activation_type v = a /\ edges v = [] /\
  outputShape v = (let '(r, c, _) := i in (window_places r k, window_places c k, n)) /\ (t = full \/ t = convolution2dValid -> flags_ok v).
Proof.
  intros t i n k f g a v H. unfold new_filters in H. destruct (f && negb (layer_eqb t convolution2dValid)); [discriminate|]. injection H as <-. repeat split. unfold flags_ok. cbn. intros [-> | ->]; now left.
Qed.
Lemma plain_output : forall t i o f g a v, new_plain t i o f g a = Ok v -> producesOutput v = true -> node_type v = full.
Proof. intros t i o f g a v H P. unfold new_plain in H. destruct t; cbn [layer_eqb negb] in H; rewrite ?andb_true_r in H; destruct f; try discriminate; injection H as <-; try reflexivity; discriminate. Qed.
Lemma omapM_vertices : forall d ps vs, omapM (vertex_at d) ps = Ok vs -> Forall (fun p => 1 <= p <= length (vertices d)) ps /\ map outputShape vs = map (shape_at (vertices d)) ps.
Proof.
  induction ps as [|p ps IH]; intros vs H; cbn [omapM] in H.
  - injection H as <-. now split.
  - destruct (vertex_at d p) as [v| |] eqn:E; cbn [obind] in H; try discriminate. destruct (omapM (vertex_at d) ps) as [r| |]; cbn [obind] in H; try discriminate. injection H as <-.
    apply vertex_at_ok in E as [P E]. destruct (IH r eq_refl) as [F M]. split; [now constructor|]. cbn [map]. rewrite M. f_equal. unfold shape_at. now rewrite E.
Qed.
Lemma run_call_adds : forall c d d', run_call c d = Ok d' -> ~ is_change c ->
  exists v, d' = added v (adds c) d /\ Forall (fun p => 1 <= p <= length (vertices d)) (adds c) /\ edges v = [] /\ origin (vertices d) (adds c) v /\
    (has_filters c -> flags_ok v) /\ (adds c = [] -> c <> Add_concatenated [] -> acceptsInput v = true) /\ (has_filters c -> filters v = 0%N -> kernel_size v = 0%N /\ (producesOutput v = true -> node_type v = full)).
Proof.
  intros c d d' H N. destruct c as [t i o f a|t i n k f a|p i o t f a|p n k t f a|ps|s id]; cbn [run_call adds has_filters] in *; [| | | | |now contradict N].
  - unfold add_input in H. destruct (new_plain t i o f true a) as [v| |] eqn:E; cbn [obind] in H; try discriminate. injection H as <-.
    destruct (new_plain_ok _ _ _ _ _ _ _ E) as (K1 & K2 & K3 & K4 & K5 & K6 & K7 & K8 & K9 & K10). exists v. split; [unfold added; cbn [fold_left]; now rewrite K5|].
    split; [constructor|]. split; [exact K7|]. split; [|split; [auto|split; [auto|intros _ _; split; [exact K9|eapply plain_output; exact E]]]]. apply from_input with (i := i) (v0 := v); auto. now rewrite K1, K3, K4, K6.
  - unfold add_input_filters in H. destruct (new_filters t i n k f true a) as [v| |] eqn:E; cbn [obind] in H; try discriminate. injection H as <-.
    destruct (new_filters_ok _ _ _ _ _ _ _ _ E) as (K1 & K2 & K3 & K4 & K5 & K6 & K7 & K8 & K9 & K10). exists v. split; [unfold added; cbn [fold_left]; now rewrite K6|].
    split; [constructor|]. split; [exact K8|]. split; [|split; [|split]].
    + apply from_filtered_input with (i := i) (v0 := v); auto. now rewrite K1, K3, K4, K5, K7.
    + intros [_ T]. now apply K10.
    + intros _ _. exact K6.
    + intros [P _] Z. lia.
  - unfold add_layer in H. destruct (vertex_at d p) as [pv| |] eqn:Ep; cbn [obind] in H; try discriminate. apply vertex_at_ok in Ep as [P Ep].
    destruct (new_plain t i o f false a) as [v| |] eqn:E; cbn [obind] in H; try discriminate. injection H as <-.
    destruct (new_plain_ok _ _ _ _ _ _ _ E) as (K1 & K2 & K3 & K4 & K5 & K6 & K7 & K8 & K9 & K10). exists v. split; [unfold added; cbn [fold_left]; now rewrite K5|].
    split; [now constructor|]. split; [exact K7|]. split; [|split; [auto|split; [discriminate|intros _ _; split; [exact K9|eapply plain_output; exact E]]]]. apply from_layer with (p := p) (i := i) (v0 := v); auto. now rewrite K1, K3, K4, K6.
  - unfold add_filters in H. destruct (vertex_at d p) as [pv| |] eqn:Ep; cbn [obind] in H; try discriminate. apply vertex_at_ok in Ep as [P Ep].
    destruct (new_filters t (outputShape pv) n k f false a) as [v| |] eqn:E; cbn [obind] in H; try discriminate. injection H as <-.
    destruct (new_filters_ok _ _ _ _ _ _ _ _ E) as (K1 & K2 & K3 & K4 & K5 & K6 & K7 & K8 & K9 & K10). exists v. split; [unfold added; cbn [fold_left]; now rewrite K6|].
    split; [now constructor|]. split; [exact K8|]. split; [|split; [|split]].
    + apply from_filters with (p := p) (v0 := v); auto. unfold shape_at. rewrite Ep. now rewrite K1, K3, K4, K5, K7.
    + intros [_ T]. now apply K10.
    + discriminate.
    + intros [Q _] Z. lia.
  - unfold add_concatenated in H. destruct (omapM (vertex_at d) ps) as [vs| |] eqn:E; cbn [obind] in H; try discriminate. destruct (omapM_vertices _ _ _ E) as [F M]. cbv zeta in H. rewrite M in H.
    injection H as <-. exists (new_concat (map (shape_at (vertices d)) ps) (1, joined_width (map (shape_at (vertices d)) ps), 1)%N). split; [reflexivity|]. split; [exact F|]. split; [reflexivity|]. split; [|split; [|split]].
    + apply from_join; reflexivity.
    + intros _. right. now repeat split.
    + intros -> C. now contradict C.
    + intros _ _. split; [reflexivity|discriminate].
Qed.
Lemma described_new : forall o r b l, described [] (new_dsl o r b l).
Proof.
  intros o r b l. constructor; cbn.
  - reflexivity.
  - intros i v H. destruct i; discriminate H.
  - reflexivity.
  - intros i p H. destruct i; contradiction H.
  - intros i v H. destruct i; discriminate H.
Qed.
Lemma parents_of_app : forall a b, parents_of (a ++ b) = parents_of a ++ parents_of b.
Proof. induction a as [|c a IH]; intros b; [reflexivity|]. destruct c; cbn [app parents_of]; now rewrite IH. Qed.
Lemma parents_of_one : forall c, ~ is_change c -> parents_of [c] = [adds c].
Proof. intros []; cbn; intros H; try reflexivity. now contradict H. Qed.
Lemma run_described : forall cs done d d', described (parents_of done) d -> run cs d = Ok d' -> described (parents_of (done ++ cs)) d'.
Proof.
  induction cs as [|c cs IH]; intros done d d' D H; cbn [run] in H; [injection H as <-; now rewrite app_nil_r|].
  destruct (run_call c d) as [d1| |] eqn:E; cbn [obind] in H; try discriminate.
  replace (done ++ c :: cs) with ((done ++ [c]) ++ cs) by now rewrite <- app_assoc. apply (IH _ d1); [|exact H]. rewrite parents_of_app.
  destruct c as [t i o f a|t i n k f a|p i o t f a|p n k t f a|ps|s id].
  all: try (rewrite parents_of_one by (intros []); destruct (run_call_adds _ _ _ E ltac:(intros [])) as (v & -> & F & Ev & O & _); now apply described_added).
  cbn [parents_of]. rewrite app_nil_r. cbn [run_call] in E. now apply (described_change _ _ _ _ _ D E).
Qed.
(** A property of vertices that creation gives and nothing takes away. *)
Lemma run_keeps : forall (ok : call -> Prop) (P : vertex -> Prop) (I : dsl -> Prop),
  (forall c d d', I d -> Forall P (vertices d) -> ok c -> run_call c d = Ok d' -> ~ is_change c -> exists v, d' = added v (adds c) d /\ Forall (fun p => 1 <= p <= length (vertices d)) (adds c) /\ edges v = [] /\ P v) ->
  (forall c d d', I d -> run_call c d = Ok d' -> I d') ->
  (forall s id v v', ok (Change s id) -> set_vertex s v = Ok v' -> P v -> P v') -> (forall es v, P v -> P (with_edges es v)) ->
  forall cs d d', I d -> Forall ok cs -> Forall P (vertices d) -> run cs d = Ok d' -> Forall P (vertices d').
Proof.
  intros ok P I H1 HI H2 H3. induction cs as [|c cs IH]; intros d d' Id Hc Hd H; cbn [run] in H; [now injection H as <-|].
  inversion Hc as [|? ? C1 C2]; subst. destruct (run_call c d) as [d1| |] eqn:E; cbn [obind] in H; try discriminate. apply (IH d1); auto; [eapply HI; eassumption|].
  assert (DEC : is_change c \/ ~ is_change c) by (destruct c; cbn; auto). destruct DEC as [Y|N].
  - destruct c as [| | | | |s id]; try contradiction Y. cbn [run_call] in E. unfold change in E. destruct (vertex_at d id) as [v| |] eqn:Ev; cbn [obind] in E; try discriminate. apply vertex_at_ok in Ev as [Hid Ev].
    destruct (set_vertex s v) as [v'| |] eqn:Es; cbn [obind] in E; try discriminate. injection E as <-. cbn [with_vertices vertices]. rewrite Forall_forall in *. intros u Hu. apply In_nth_error in Hu as [i Hu].
    rewrite nth_update in Hu. destruct (Nat.eqb_spec i (id - 1)) as [Ei|Ei]; [rewrite Ei in Hu|].
    + rewrite Ev in Hu. cbn [option_map] in Hu. injection Hu as <-. apply (H2 s id v); auto. apply Hd. eapply nth_error_In; eassumption.
    + apply Hd. eapply nth_error_In; eassumption.
  - destruct (H1 c d d1 Id Hd C1 E N) as (v & -> & F & Ev & Pv). destruct (added_vertices v (adds c) d F Ev) as (L & _ & V1 & V2 & _). rewrite Forall_forall in *. intros u Hu. apply In_nth_error in Hu as [i Hu].
    assert (i < S (length (vertices d))) by (rewrite <- L; apply nth_error_Some; congruence). destruct (Nat.eq_dec i (length (vertices d))) as [->|].
    + rewrite V2 in Hu. now injection Hu as <-.
    + rewrite V1 in Hu by lia. destruct (nth_error (vertices d) i) as [x|] eqn:Ex; [|discriminate]. cbn [option_map] in Hu. injection Hu as <-. apply H3, Hd. eapply nth_error_In; eassumption.
Qed.
