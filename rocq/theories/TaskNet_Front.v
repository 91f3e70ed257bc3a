(** The first layers of the network of a task. *)
From Coq Require Import List Arith Bool NArith ZArith QArith Reals Lia Lra.
From Verif Require Import Outcome Chars NumText_Model Tensor_Model Graph_Model Graph_Spec Net_Model Net_Spec Net_Graph ModelFile_Model ModelFile_Spec ModelFile_Proofs ModelFile_Text ModelFile_Order ModelFile_Props TaskNet_Model TaskNet_Spec TaskNet_Proofs TaskNet_Shapes.
Import ListNotations.
Local Open Scope nat_scope.

Lemma nth_error_ext_map : forall {A B C} (f : A -> C) (h : B -> C) l k, length l = length k -> (forall j y, nth_error k j = Some y -> exists x, nth_error l j = Some x /\ f x = h y) -> map f l = map h k.
Proof.
  intros A B C f h l. induction l as [|x l IH]; intros [|y k] E H; try discriminate; [reflexivity|]. cbn [map]. destruct (H 0 y eq_refl) as (x' & Ex & Ef). injection Ex as <-. rewrite Ef. f_equal. apply IH; [now injection E|]. intros j z Hj. exact (H (S j) z Hj).
Qed.
Section Front.
(** [lax]: errors may fail to get through some layers. *)
Context (lax : Prop) (given : list column) (cce memory : bool).
Definition set_up (b : nat) (l1 : vertex) : vertex := with_edges [S b] (configured cce memory l1).
Definition shapes_are (d : dsl) (net : building) (f : nat -> Layer_Model.shape) (id : nat) (v : vertex) : Prop :=
  gives v (arriving_shapes d net f id v) = Some (f id) /\ (sends_back v (acceptsInput v) (arriving_shapes d net f id v) \/ lax /\ clogged v (arriving_shapes d net f id v) = true).
Definition joinable (c : column) : Prop := let '(h, w, k) := size c in (1 <= h /\ 1 <= w /\ (k = 1 \/ lax /\ 2 <= h /\ 2 <= k))%N.
Record front (cs : list call) (pre : list vertex) (l1 : vertex) (b : nat) (o1 : shape) (psh : list Layer_Model.shape) (hs : list nat) : Prop := {
  f_run : forall o r rb l, exists d, run cs (new_dsl o r rb l) = Ok d /\ vertices d = pre ++ [l1] /\ inputReceptors d = hs;
  f_b : b = S (length pre);
  f_joins : joins_something cs;
  f_parents : length (parents_of cs) = b;
  f_weighted : weighted (node_type l1) = true;
  f_edges : edges l1 = [];
  f_first : producesOutput l1 = false;
  f_pre : Forall (fun v => length (edges v) = 1 /\ producesOutput v = false /\ construct v = Ok tt) pre;
  f_psh : length psh = length pre;
  f_o1 : exists r1 c1, nat_shape o1 = (r1, c1, 1) /\ 1 <= r1;
  f_shapes : forall d net tv tps f, described (parents_of cs ++ tps) d -> (forall i v, nth_error (vertices d) i = Some v -> nth i (parents_of cs ++ tps) [] = [] -> acceptsInput v = true) ->
    build d = Ok net -> vertices d = pre ++ set_up b l1 :: tv -> (forall i, i <= length pre -> f (S i) = nth i (psh ++ [nat_shape o1]) (0, 0, 0)) ->
    forall i v, nth_error (pre ++ [set_up b l1]) i = Some v -> shapes_are d net f (S i) v;
  f_given : Forall2 (fun id c => exists i v, id = S i /\ nth_error (pre ++ [l1]) i = Some v /\ inputShapes v = [size c]) hs given }.

(** ** One picture *)
Lemma places : forall h, (3 <= h < 2 ^ 64)%N -> N.to_nat (window_places h 3) = N.to_nat h - 2.
Proof.
  intros h H. unfold window_places. change two64 with (2 ^ 64)%N. replace (h + 2 ^ 64 - 3 + 1)%N with (h - 2 + 1 * 2 ^ 64)%N by lia. rewrite N.mod_add by discriminate. rewrite N.mod_small by lia. lia.
Qed.
Lemma picture_front : forall c, given = [c] -> big_picture c ->
  exists l1, front [Add_input_filters convolution2dValid (size c) 1 3 false leaky; Change (Use_bias true) 1] [] l1 1 (let '(h, w, _) := size c in (window_places h 3, window_places w 3, 1%N)) [] [1].
Proof.
  intros [pic s] Eg Hc. unfold big_picture in Hc. cbn [size picture] in *. destruct s as [[h w] k]. destruct Hc as (_ & Hh & Hw & Hk). eexists. constructor.
  - intros o r rb l. eexists. split; [reflexivity|]. cbn [vertices inputReceptors]. split; reflexivity.
  - reflexivity.
  - intros [Z|[Z|[]]]; discriminate.
  - reflexivity.
  - reflexivity.
  - reflexivity.
  - reflexivity.
  - constructor.
  - reflexivity.
  - cbn [nat_shape]. eexists _, _. split; [reflexivity|]. rewrite (places h Hh). lia.
  - intros d net tv tps f D HI B Hv Hf i v Hi. destruct i as [|i]; [|destruct i; discriminate]. injection Hi as <-. specialize (Hf 0 (le_n 0)). cbn [nth app nat_shape] in Hf.
    unfold shapes_are. rewrite Hf. rewrite (places h Hh), (places w Hw). unfold arriving_shapes. cbn [set_up configured with_edges acceptsInput]. unfold gives, makes, sends_back. cbn [node_type use_bias]. unfold input_shape, output_shape, filters_of, kernel. cbn [inputShapes outputShape hd nat_shape filters kernel_size snd].
    rewrite (places h Hh), (places w Hw). change (N.to_nat 1) with 1. change (N.to_nat 3) with 3. rewrite Nat.eqb_refl. split.
    + replace (1 <=? N.to_nat k) with true by (symmetry; apply Nat.leb_le; lia). replace (3 <=? N.to_nat h) with true by (symmetry; apply Nat.leb_le; lia). replace (3 <=? N.to_nat w) with true by (symmetry; apply Nat.leb_le; lia).
      cbn [andb Nat.leb]. replace (N.to_nat h + 1 - 3) with (N.to_nat h - 2) by lia. replace (N.to_nat w + 1 - 3) with (N.to_nat w - 2) by lia. unfold shape_eqb. rewrite !Nat.eqb_refl. reflexivity.
    + left. split; [reflexivity|]. split; [lia|left; reflexivity].
  - rewrite Eg. constructor; [|constructor]. exists 0. eexists. split; [reflexivity|]. split; reflexivity.
Qed.

(** ** One other column *)
Lemma plain_front : forall c n, given = [c] -> flat_column c ->
  exists l1, front [Add_input full (size c) (1, n, 1)%N false leaky; Change (Use_bias true) 1] [] l1 1 (1, n, 1)%N [] [1].
Proof.
  intros [pic s] n Eg Hc. unfold flat_column in Hc. cbn [size picture] in *. destruct s as [[h w] k]. destruct Hc as (Hh & Hw & ->). eexists. constructor.
  - intros o r rb l. eexists. split; [reflexivity|]. cbn [vertices inputReceptors]. split; reflexivity.
  - reflexivity.
  - intros [Z|[Z|[]]]; discriminate.
  - reflexivity.
  - reflexivity.
  - reflexivity.
  - reflexivity.
  - constructor.
  - reflexivity.
  - cbn [nat_shape]. eexists _, _. split; [reflexivity|]. change (N.to_nat 1) with 1. lia.
  - intros d net tv tps f D HI B Hv Hf i v Hi. destruct i as [|i]; [|destruct i; discriminate]. injection Hi as <-. specialize (Hf 0 (le_n 0)). cbn [nth app nat_shape] in Hf.
    unfold shapes_are. rewrite Hf. unfold arriving_shapes. cbn [set_up configured with_edges acceptsInput]. unfold gives, makes, sends_back, entering. cbn [node_type use_bias]. unfold input_shape, output_shape. cbn [inputShapes outputShape hd nat_shape fst].
    change (N.to_nat 1) with 1. cbn [volume]. split; [|left; intros _; repeat constructor; now right].
    assert (Hh' : 1 <= N.to_nat h) by lia. generalize dependent (N.to_nat h). intros rr Hr. unfold flattened. destruct (Nat.ltb_spec 1 rr) as [R|R].
    + destruct (Nat.eqb_spec rr 1); [lia|]. rewrite Nat.eqb_refl. cbn [Nat.eqb andb]. rewrite Nat.mul_1_l, Nat.mul_1_r, eqb1. reflexivity.
    + assert (rr = 1) as -> by lia. rewrite Nat.mul_1_l, Nat.mul_1_r, Nat.eqb_refl. cbn [Nat.eqb andb]. rewrite Nat.mul_1_l, Nat.mul_1_r, eqb1. reflexivity.
  - rewrite Eg. constructor; [|constructor]. exists 0. eexists. split; [reflexivity|]. split; reflexivity.
Qed.

(** ** Several columns *)
Definition values (c : column) : shape := (1, values_of (size c), 1)%N.
Definition flat_input (es : list nat) (c : column) : vertex := plain flatten linear (size c) (values c) true false false es.
Lemma inputs_run : forall l d cs, run (map (fun c => Add_input flatten (size c) (values c) false linear) l ++ cs) d =
  run cs (with_receptors (with_vertices d (vertices d ++ map (flat_input []) l)) (inputReceptors d ++ seq (S (length (vertices d))) (length l))).
Proof.
  induction l as [|c l IH]; intros d cs.
  - cbn [map app length seq]. rewrite !app_nil_r. now destruct d.
  - cbn [map app run run_call]. unfold add_input. cbn [new_plain andb obind]. fold (flat_input [] c). rewrite IH. f_equal. unfold with_receptors, with_vertices, add_vertex, with_vertices, next_id. cbn [vertices inputReceptors optimizer learningRate biasLearningRate loss map length seq].
    rewrite !app_length. cbn [length]. rewrite Nat.add_1_r, <- !app_assoc. reflexivity.
Qed.
Lemma join_edges : forall t l done r d, vertices d = done ++ l ++ r ->
  fold_left (fun d' p => add_edge p t d') (seq (S (length done)) (length l)) d = with_vertices d (done ++ map (fun v => with_edges (edges v ++ [t]) v) l ++ r).
Proof.
  intros t l. induction l as [|v l IH]; intros done r d E.
  - cbn [length seq fold_left map app] in *. rewrite <- E. now destruct d.
  - cbn [length seq fold_left map app] in *. set (v' := with_edges (edges v ++ [t]) v).
    assert (A : add_edge (S (length done)) t d = with_vertices d (done ++ v' :: l ++ r)) by (unfold add_edge; rewrite E, update_at by lia; reflexivity).
    rewrite A. replace (S (S (length done))) with (S (length (done ++ [v']))) by (rewrite app_length; cbn [length]; lia). rewrite (IH (done ++ [v']) r) by (cbn [vertices with_vertices]; now rewrite <- app_assoc). rewrite with_twice, <- app_assoc. reflexivity.
Qed.
Lemma omap_seq : forall d l done r, vertices d = done ++ l ++ r -> omapM (vertex_at d) (seq (S (length done)) (length l)) = Ok l.
Proof.
  intros d l. induction l as [|v l IH]; intros done r E; [reflexivity|]. cbn [length seq omapM]. rewrite (vertex_mid d done v (l ++ r)) by (auto). cbn [obind].
  replace (S (S (length done))) with (S (length (done ++ [v]))) by (rewrite app_length; cbn [length]; lia). rewrite (IH (done ++ [v]) r) by (rewrite <- app_assoc; exact E). reflexivity.
Qed.
Lemma parents_inputs : forall l, parents_of (map (fun c => Add_input flatten (size c) (values c) false linear) l) = repeat [] (length l).
Proof. induction l as [|c l IH]; [reflexivity|]. cbn [map parents_of length repeat]. now rewrite IH. Qed.
Lemma seq_increasing : forall n a, increasing (seq a n).
Proof.
  intros n a i j x y Hij Hx Hy. assert (i < n /\ j < n). { split; [apply (f_equal (fun o => o)) in Hx; assert (i < length (seq a n)) by (apply nth_error_Some; congruence)|assert (j < length (seq a n)) by (apply nth_error_Some; congruence)]; rewrite seq_length in *; lia. }
  apply (nth_error_nth _ _ 0) in Hx, Hy. rewrite seq_nth in Hx, Hy by lia. lia.
Qed.
Lemma concat_makes : forall l, 2 <= length l ->
  (match map (fun c => nat_shape (values c)) l with
   | (r, _, k) :: _ :: _ => if forallb (fun '(r', _, k') => (r' =? r) && (k' =? k)) (map (fun c => nat_shape (values c)) l) then Some (r, total_width (map (fun c => nat_shape (values c)) l), k) else None
   | _ => None
   end) = Some (1, N.to_nat (total_values (map size l)), 1).
Proof.
  intros l L.
  assert (G : forall l, forallb (fun '(r', _, k') => (r' =? 1) && (k' =? 1))%bool (map (fun c => nat_shape (values c)) l) = true) by (intros k; apply forallb_forall; intros s I; apply in_map_iff in I as (c & <- & _); reflexivity).
  assert (W : forall l, total_width (map (fun c => nat_shape (values c)) l) = N.to_nat (total_values (map size l))) by (clear; induction l as [|c l IH]; [reflexivity|]; change (N.to_nat (values_of (size c)) + total_width (map (fun c => nat_shape (values c)) l) = N.to_nat (values_of (size c) + total_values (map size l))); rewrite N2Nat.inj_add, <- IH; reflexivity).
  rewrite <- W. pose proof (G l) as G1. destruct l as [|c1 [|c2 l]]; cbn [length] in L; try lia. cbn [map] in *. unfold values at 1, nat_shape at 1. cbn [map] in *. change (N.to_nat 1) with 1. rewrite G1. reflexivity.
Qed.
Lemma inputs_given : forall t l done r, Forall2 (fun id c => exists i v, id = S i /\ nth_error (done ++ map (flat_input [t]) l ++ r) i = Some v /\ inputShapes v = [size c]) (seq (S (length done)) (length l)) l.
Proof.
  intros t l. induction l as [|c l IH]; intros done r; cbn [length seq map app]; constructor.
  - exists (length done). eexists. split; [reflexivity|]. rewrite nth_error_app2, Nat.sub_diag by lia. split; reflexivity.
  - specialize (IH (done ++ [flat_input [t] c]) r). rewrite app_length, Nat.add_1_r, <- app_assoc in IH. exact IH.
Qed.
Lemma several_front : forall n, 2 <= length given -> Forall joinable given ->
  exists pre l1, (forall i c, nth_error given i = Some c -> exists v, nth_error pre i = Some v /\ node_type v = flatten /\ acceptsInput v = true /\ inputShapes v = [size c]) /\
    front (map (fun c => Add_input flatten (size c) (values c) false linear) given ++
          [Add_concatenated (seq 1 (length given)); Add_layer (S (length given)) (1, total_values (map size given), 1)%N (1, n, 1)%N full false leaky])
    pre l1 (S (S (length given))) (1, n, 1)%N (map (fun c => nat_shape (values c)) given ++ [(1, N.to_nat (total_values (map size given)), 1)]) (seq 1 (length given)).
Proof.
  intros n Hn HF. set (m := length given) in *. set (tot := total_values (map size given)).
  set (total := fold_left (fun sum s => ((sum + width s) mod two64)%N) (map values given) 0%N).
  set (joined := with_edges [S (S m)] (new_concat (map values given) (1, total, 1)%N)).
  exists (map (flat_input [S m]) given ++ [joined]), (plain full leaky (1, tot, 1)%N (1, n, 1)%N false false false []).
  assert (Lp : length (map (flat_input [S m]) given ++ [joined]) = S m) by (rewrite app_length, map_length; cbn [length]; fold m; lia).
  assert (Pcs : parents_of (map (fun c => Add_input flatten (size c) (values c) false linear) given ++ [Add_concatenated (seq 1 m); Add_layer (S m) (1, tot, 1)%N (1, n, 1)%N full false leaky]) = repeat [] m ++ [seq 1 m; [S m]]).
  { rewrite parents_of_app, parents_inputs. reflexivity. }
  split.
  { intros i c Hi. exists (flat_input [S m] c). assert (i < m) by (apply nth_error_Some; congruence). rewrite nth_error_app1, nth_error_map, Hi by (rewrite map_length; exact H). repeat split. }
  constructor.
  - intros o r rb l. eexists. split; [|split].
    + rewrite inputs_run. cbn [new_dsl vertices inputReceptors app length]. fold m.
      match goal with |- run (?a :: ?b) ?d0 = _ => change (run (a :: b) d0) with (do d1 <- run_call a d0; run b d1) end. cbn [run_call]. unfold add_concatenated.
      match goal with |- context [omapM (vertex_at ?d0) _] => set (d := d0) end.
      pose proof (omap_seq d (map (flat_input []) given) [] [] (eq_sym (app_nil_r _))) as Q. cbn [length] in Q. rewrite map_length in Q. fold m in Q. rewrite Q. clear Q. cbn [obind].
      rewrite map_map. change (fun x => outputShape (flat_input [] x)) with values. fold total.
      assert (Nd : next_id d = S m) by (unfold next_id, d; cbn [vertices with_receptors with_vertices]; rewrite map_length; reflexivity). rewrite Nd.
      pose proof (join_edges (S m) (map (flat_input []) given) [] [new_concat (map values given) (1, total, 1)%N] (add_vertex (new_concat (map values given) (1, total, 1)%N) d)) as Q.
      cbn [length app] in Q. rewrite map_length in Q. fold m in Q. rewrite Q by (unfold d, add_vertex; reflexivity). clear Q. rewrite map_map. change (fun x => with_edges (edges (flat_input [] x) ++ [S m]) (flat_input [] x)) with (flat_input [S m]).
      rewrite (layer_next _ (map (flat_input [S m]) given) _ [] _ _ _ _ _ (plain full leaky (1, tot, 1)%N (1, n, 1)%N false false false []) (S m) []); [|now rewrite map_length|reflexivity].
      cbn [run]. reflexivity.
    + cbn [vertices with_vertices]. rewrite <- app_assoc. cbn [app edges new_concat]. rewrite app_length, map_length. cbn [length]. fold m. rewrite Nat.add_1_r. reflexivity.
    + reflexivity.
  - lia.
  - intros I. apply in_app_or in I as [I|[I|[I|[]]]]; try discriminate.
    + apply in_map_iff in I as (c & Z & _). discriminate.
    + injection I as Z. apply (f_equal (@length nat)) in Z. rewrite seq_length in Z. cbn in Z. lia.
  - rewrite Pcs, app_length, repeat_length. cbn [length]. lia.
  - reflexivity.
  - reflexivity.
  - reflexivity.
  - apply Forall_app. split; [apply Forall_forall; intros v I; apply in_map_iff in I as (c & <- & _); repeat split|]. constructor; [|constructor]. split; [reflexivity|]. split; [reflexivity|].
    unfold construct, joined. cbn [with_edges new_concat node_type inputShapes].
    assert (G : forall l, forallb (fun '(r', _, k') => (r' =? 1)%N && (k' =? 1)%N)%bool (map values l) = true) by (intros k; apply forallb_forall; intros s I; apply in_map_iff in I as (c & <- & _); reflexivity).
    destruct given as [|c1 [|c2 l]] eqn:Eg; cbn in Hn; try lia. cbn [map values]. cbn [map values] in G. pose proof (G (c1 :: c2 :: l)) as G1. cbn [map values] in G1. rewrite G1. reflexivity.
  - rewrite !app_length, !map_length. reflexivity.
  - cbn [nat_shape]. eexists _, _. split; [reflexivity|]. change (N.to_nat 1) with 1. lia.
  - rewrite Pcs. intros d net tv tps f D HI B Hv Hf i v Hi.
    assert (Hlen : S m < length (vertices d)) by (rewrite Hv, !app_length, map_length; cbn [length]; fold m; lia).
    assert (Fi : forall j c, nth_error given j = Some c -> f (S j) = nat_shape (values c)).
    { intros j c Hj. assert (j < m) by (apply nth_error_Some; congruence). rewrite Hf by lia. rewrite !app_nth1 by (rewrite ?app_length, map_length; fold m; cbn [length]; lia). apply nth_error_nth. now rewrite nth_error_map, Hj. }
    assert (Fm : f (S m) = (1, N.to_nat tot, 1)).
    { rewrite Hf by lia. rewrite app_nth1 by (rewrite app_length, map_length; fold m; cbn [length]; lia). rewrite app_nth2 by (rewrite map_length; fold m; lia). rewrite map_length. fold m. rewrite Nat.sub_diag. reflexivity. }
    assert (Fl : f (S (S m)) = (1, N.to_nat n, 1)).
    { rewrite Hf by lia. rewrite app_nth2 by (rewrite app_length, map_length; fold m; cbn [length]; lia). rewrite app_length, map_length. fold m. replace (S m - _) with 0 by (cbn [length]; lia). reflexivity. }
    assert (Fmap : map f (seq 1 m) = map (fun c => nat_shape (values c)) given).
    { apply nth_error_ext_map; [rewrite seq_length; reflexivity|]. intros j c Hj. exists (S j). split; [|exact (Fi j c Hj)]. assert (j < m) by (apply nth_error_Some; congruence).
      rewrite nth_error_nth' with (d := 0) by (rewrite seq_length; exact H). now rewrite seq_nth. }
    assert (Fc : forall c, In c given -> exists h w k, size c = (h, w, k)%N /\ (1 <= h)%N /\ (1 <= w)%N /\ (k = 1 \/ lax /\ 2 <= h /\ 2 <= k)%N).
    { intros c I. rewrite Forall_forall in HF. specialize (HF c I). unfold joinable in HF. destruct (size c) as [[h w] k]. destruct HF as (? & ? & ?). eauto 8. }
    destruct (lt_eq_lt_dec i m) as [[Him|Him]|Him].
    + (* a column *)
      rewrite <- app_assoc, nth_error_app1 in Hi by (rewrite map_length; exact Him). apply nth_map_error in Hi as (c & Hj & ->). unfold shapes_are. rewrite (Fi i c Hj). unfold arriving_shapes. cbn [flat_input plain acceptsInput].
      unfold gives, makes, sends_back. cbn [node_type use_bias plain flat_input]. unfold input_shape. cbn [inputShapes flat_input plain hd]. destruct (Fc c (nth_error_In _ _ Hj)) as (h & w & k & Es & Hh & Hw & Hk). unfold values, values_of. rewrite Es. cbn [nat_shape]. change (N.to_nat 1) with 1.
      split; [|destruct Hk as [->|(Lx & H2 & K2)]; [left; apply Forall_cons; [now right|apply Forall_nil]|right]].
      2: { split; [exact Lx|]. unfold clogged. cbn [node_type flat_input plain existsb several_rows_and_channels]. destruct (Nat.eqb_spec (N.to_nat h) 1); [lia|]. replace (1 <? N.to_nat k) with true by (symmetry; apply Nat.ltb_lt; lia). replace (0 <? N.to_nat h * N.to_nat w) with true by (symmetry; apply Nat.ltb_lt; nia). reflexivity. }
      cbn [andb]. unfold flattened. destruct (Nat.eqb_spec (N.to_nat h) 1) as [E1|E1].
      * rewrite E1. assert (h = 1%N) as -> by lia. destruct Hk as [->|(_ & H2 & _)]; [|lia]. do 3 f_equal. lia.
      * do 3 f_equal. rewrite !N2Nat.inj_mul. reflexivity.
    + (* the concatenation *)
      subst i. rewrite <- app_assoc, nth_error_app2 in Hi by (rewrite map_length; fold m; lia). rewrite map_length in Hi. fold m in Hi. rewrite Nat.sub_diag in Hi. cbn [app nth_error] in Hi. injection Hi as <-.
      unfold shapes_are. rewrite Fm. unfold arriving_shapes. change (acceptsInput joined) with false. cbv iota. cbn [with_edges new_concat acceptsInput].
      assert (P : nth (S m - 1) (repeat [] m ++ [seq 1 m; [S m]] ++ tps) [] = seq 1 m). { rewrite app_nth2 by (rewrite repeat_length; lia). rewrite repeat_length. replace (S m - 1 - m) with 0 by lia. reflexivity. }
      rewrite <- app_assoc in D.
      assert (Ar : arriving (S m) (connections net) = seq 1 m).
      { rewrite <- P. apply (inputs_in_order _ d net (S m) D).
        - rewrite P. intros u Iu. apply in_seq in Iu. unfold accepting. rewrite Hv, <- app_assoc, nth_error_app1 by (rewrite map_length; fold m; lia). rewrite nth_error_map. destruct (nth_error given (u - 1)) as [c|] eqn:Ec; [reflexivity|apply nth_error_None in Ec; fold m in Ec; lia].
        - rewrite P. apply seq_increasing.
        - lia.
        - exact B. }
      rewrite Ar, Fmap. unfold gives, makes, sends_back, joined. cbn [node_type use_bias with_edges new_concat inputShapes andb]. split; [|left; split].
      * pose proof (concat_makes given Hn) as X. fold tot in X. rewrite X. reflexivity.
      * now rewrite map_map.
      * apply Forall_forall. intros s I. apply in_map_iff in I as (c & <- & I). cbn [values nat_shape fst snd]. destruct (Fc c I) as (h & w & k & Es & Hh & Hw & Hk). unfold values_of. rewrite Es. assert (1 <= k)%N by (destruct Hk as [->|(_ & _ & ?)]; lia). clear - Hh Hw H. nia.
    + (* the first layer *)
      assert (i = S m) as ->. { assert (i < length ((map (flat_input [S m]) given ++ [joined]) ++ [set_up (S (S m)) (plain full leaky (1, tot, 1)%N (1, n, 1)%N false false false [])])) by (apply nth_error_Some; congruence). rewrite app_length, Lp in H. cbn [length] in H. lia. }
      rewrite nth_error_app2 in Hi by (rewrite Lp; lia). rewrite Lp, Nat.sub_diag in Hi. injection Hi as <-.
      assert (Ar : arriving (S (S m)) (connections net) = [S m]).
      { apply (one_parent _ d net (S (S m)) (S m) D HI B); [lia|]. rewrite <- app_assoc, app_nth2 by (rewrite repeat_length; lia). rewrite repeat_length. replace (S (S m) - 1 - m) with 1 by lia. reflexivity. }
      unfold shapes_are, arriving_shapes. cbn [set_up configured plain with_edges acceptsInput]. rewrite Ar. cbn [map]. rewrite Fm, Fl. match goal with |- gives ?v _ = _ /\ _ => destruct (full_ok v (N.to_nat tot) (N.to_nat n) _ eq_refl eq_refl eq_refl eq_refl) as [Q1 Q2] end. split; [exact Q1|left; exact Q2].
  - pose proof (inputs_given (S m) given [] [joined; plain full leaky (1, tot, 1)%N (1, n, 1)%N false false false []]) as Q. cbn [length app] in Q. rewrite <- app_assoc. exact Q.
Qed.
End Front.
