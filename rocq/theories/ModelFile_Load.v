(** Reading the records back. *)
From Coq Require Import Ascii String List Bool Arith NArith ZArith Reals Lia Lra Permutation.
From Flocq Require Import Core.
From Verif Require Import Chars Outcome Lines_Model Delimited_Model Delimited_Spec Delimited_Proofs Delimited_Props NumText_Model NumText_Proofs ModelFile_Model ModelFile_Spec ModelFile_Proofs ModelFile_Text.
Import ListNotations.
Open Scope nat_scope.

(** ** Names *)
Lemma activation_name : forall a, stringToActivationType (activationTypeToString a) = Ok a.
Proof. now intros []. Qed.
Lemma node_name : forall a, stringToNodeType (nodeTypeToString a) = Ok a.
Proof. now intros []. Qed.
Lemma loss_name : forall a, stringToLossType (lossTypeToString a) = Ok a.
Proof. now intros []. Qed.
Lemma optimizer_name : forall a, stringToOptimizerType (optimizerTypeToString a) = Ok a.
Proof. now intros []. Qed.

(** ** One vertex *)
Lemma vec_at_app : forall (A : Type) (a b : list A) x, vec_at (a ++ x :: b) (length a) = Ok x.
Proof. intros A a b x. unfold vec_at. rewrite nth_error_app2, Nat.sub_diag by lia. reflexivity. Qed.
Lemma vec_at_app_plus : forall (A : Type) (a b : list A) i, vec_at (a ++ b) (length a + i) = vec_at b i.
Proof. intros A a b i. unfold vec_at. rewrite nth_error_app2 by lia. now replace (length a + i - length a) with i by lia. Qed.
Definition shape_text (s : N * N * N) : list str := let '(r, c, k) := s in [asString_uint r; asString_uint c; asString_uint k].
Lemma small64 : forall n, (n < 2 ^ 64)%N -> (n < two64)%N.
Proof. intros n H. exact H. Qed.
Lemma read_shape_ok : forall s a b, size64 s -> read_shape (a ++ shape_text s ++ b) (length a) = Ok s.
Proof.
  intros [[r c] k] a b (H1 & H2 & H3). unfold read_shape. rewrite <- (Nat.add_0_r (length a)) at 1. rewrite !vec_at_app_plus.
  cbn [shape_text app]. unfold vec_at. cbn [nth_error obind]. rewrite !stoull_asString by (apply small64; assumption). reflexivity.
Qed.
Lemma read_shapes_ok : forall ss a b, Forall size64 ss -> read_shapes (length ss) (a ++ flat_map shape_text ss ++ b) (length a) = Ok ss.
Proof.
  induction ss as [|s ss IH]; intros a b H; [reflexivity|]. inversion H as [|? ? H1 H2]; subst. cbn [length flat_map read_shapes]. rewrite <- !app_assoc, read_shape_ok by assumption. cbn [obind].
  assert (L : length (a ++ shape_text s) = length a + 3) by (rewrite app_length; destruct s as [[? ?] ?]; reflexivity). rewrite <- L. rewrite app_assoc. rewrite IH by assumption. reflexivity.
Qed.
Lemma stof_fits : forall x, fits15 x -> stof (asString_float x) = Ok x.
Proof. intros x (A & B & C). now apply float_read_back. Qed.
Definition front_text (id : nat) (v : vertex) : list str :=
  [lit "vertex"; asString_id id; asString_bool (acceptsInput v); asString_bool (producesOutput v); nodeTypeToString (node_type v);
   activationTypeToString (activation_type v); asString_bool (materialized v); asString_bool (use_bias v); asString_uint (bits v); asString_uint (N.of_nat (length (inputShapes v)))].
Definition back_text (v : vertex) : list str :=
  [asString_uint (filters v); asString_uint (kernel_size v); asString_bool (use_l2_regularization v); asString_bool (use_normalization v);
   asString_bool (use_norm_clipping v); asString_float (norm_clipping_threshold v); asString_float (dropout_rate v); asString_float (regularization_strength v)].
Lemma vertex_record_parts : forall id v, vertex_record id v = front_text id v ++ flat_map shape_text (inputShapes v) ++ shape_text (outputShape v) ++ back_text v.
Proof.
  intros id v. unfold vertex_record. fold (front_text id v). fold (back_text v). f_equal.
Qed.
Lemma id_small : forall id, (N.of_nat id < two32)%N -> stoul32 (asString_id id) = Ok (N.of_nat id).
Proof. intros id H. now apply stoul32_asString. Qed.
Lemma read_vertex_ok : forall id v, machine v -> (N.of_nat id < two32)%N -> read_vertex (vertex_record id v) = Ok (N.of_nat id, with_edges [] v).
Proof.
  intros id v [M1 M2 M3 M4 M5 M6 M7 M8 M9] Hid. rewrite vertex_record_parts. unfold read_vertex.
  set (rest := flat_map shape_text (inputShapes v) ++ shape_text (outputShape v) ++ back_text v).
  assert (A : forall i x, nth_error (front_text id v) i = Some x -> vec_at (front_text id v ++ rest) i = Ok x).
  { intros i x Hx. unfold vec_at. rewrite nth_error_app1, Hx by (apply nth_error_Some; congruence). reflexivity. }
  rewrite (A 1 _ eq_refl). cbn [obind]. rewrite id_small by exact Hid. cbn [obind].
  rewrite (A 2 _ eq_refl), (A 3 _ eq_refl), (A 4 _ eq_refl). cbn [obind]. rewrite node_name. cbn [obind]. rewrite (A 5 _ eq_refl). cbn [obind]. rewrite activation_name. cbn [obind].
  rewrite (A 6 _ eq_refl), (A 7 _ eq_refl), (A 8 _ eq_refl). cbn [obind]. rewrite stoull_asString by (unfold two64; lia). cbn [obind]. rewrite (A 9 _ eq_refl). cbn [obind].
  rewrite stoull_asString by (apply small64; exact M2). cbn [obind]. rewrite Nat2N.id.
  unfold rest. change 10 with (length (front_text id v)) at 1. rewrite read_shapes_ok by exact M1. cbn [obind].
  assert (LF : length (flat_map shape_text (inputShapes v)) = 3 * length (inputShapes v)). { clear. induction (inputShapes v) as [|[[r c] k] ss IH]; [reflexivity|]. cbn [flat_map shape_text app length]. rewrite IH. lia. }
  set (pre := front_text id v ++ flat_map shape_text (inputShapes v)). assert (LP : 10 + 3 * length (inputShapes v) = length pre) by (unfold pre; rewrite app_length, LF; reflexivity).
  rewrite LP. rewrite app_assoc. fold pre. rewrite read_shape_ok by exact M3. cbn [obind].
  assert (L3 : forall k x, nth_error (back_text v) (k - 3) = Some x -> 3 <= k -> vec_at (pre ++ shape_text (outputShape v) ++ back_text v) (length pre + k) = Ok x).
  { intros k x Hx Hk. rewrite vec_at_app_plus. unfold vec_at. destruct (outputShape v) as [[r c] q]. destruct k as [|[|[|k]]]; [lia|lia|lia|]. cbn [shape_text app nth_error]. replace (S (S (S k)) - 3) with k in Hx by lia. now rewrite Hx. }
  rewrite (L3 3 _ eq_refl ltac:(lia)). cbn [obind]. rewrite stoull_asString by (apply small64; exact M4). cbn [obind]. rewrite (L3 4 _ eq_refl ltac:(lia)). cbn [obind]. rewrite stoull_asString by (apply small64; exact M5). cbn [obind].
  rewrite (L3 5 _ eq_refl ltac:(lia)), (L3 6 _ eq_refl ltac:(lia)), (L3 7 _ eq_refl ltac:(lia)), (L3 8 _ eq_refl ltac:(lia)). cbn [obind]. rewrite stof_fits by exact M7. cbn [obind]. rewrite (L3 9 _ eq_refl ltac:(lia)). cbn [obind]. rewrite stof_fits by exact M8. cbn [obind].
  rewrite (L3 10 _ eq_refl ltac:(lia)). cbn [obind]. rewrite stof_fits by exact M9. cbn [obind]. rewrite !asBool_asString. rewrite N.mod_small by exact M6. now destruct v.
Qed.

(** ** Maps *)
Lemma put_comm : forall (A : Type) k j (x y : A) m, k <> j -> put k x (put j y m) = put j y (put k x m).
Proof.
  induction m as [|[c z] m IH]; intros N; cbn [put].
  - destruct (N.ltb_spec k j), (N.ltb_spec j k), (N.eqb_spec k j), (N.eqb_spec j k); try lia; reflexivity.
  - destruct (N.ltb_spec j c), (N.ltb_spec k c), (N.eqb_spec j c), (N.eqb_spec k c); try lia; cbn [put];
      repeat match goal with |- context [(?a <? ?b)%N] => destruct (N.ltb_spec a b) | |- context [(?a =? ?b)%N] => destruct (N.eqb_spec a b) end; try lia; try congruence.
    rewrite IH by exact N. reflexivity.
Qed.
Lemma put_last : forall (A : Type) k (x : A) m, (forall e, In e m -> (fst e < k)%N) -> put k x m = m ++ [(k, x)].
Proof.
  induction m as [|[c z] m IH]; intros H; [reflexivity|]. cbn [put app]. pose proof (H _ (or_introl eq_refl)) as H0. cbn [fst] in H0.
  destruct (N.ltb_spec k c); [lia|]. destruct (N.eqb_spec k c); [lia|]. rewrite IH; [reflexivity|]. intros e He. apply H. now right.
Qed.
Definition keyed {A} (g : nat -> A) (l : list nat) : list (N * A) := map (fun id => (N.of_nat id, g id)) l.
Lemma find_keyed : forall (A : Type) (g : nat -> A) l id, find (N.of_nat id) (keyed g l) = if existsb (Nat.eqb id) l then Some (g id) else None.
Proof.
  intros A g l id. induction l as [|i l IH]; [reflexivity|]. cbn [keyed map find existsb]. destruct (Nat.eqb_spec id i) as [->|N].
  - now rewrite N.eqb_refl.
  - destruct (N.eqb_spec (N.of_nat id) (N.of_nat i)); [lia|]. exact IH.
Qed.
Lemma put_keyed : forall (A : Type) (g : nat -> A) n, put (N.of_nat (S n)) (g (S n)) (keyed g (seq 1 n)) = keyed g (seq 1 (S n)).
Proof.
  intros A g n. rewrite put_last.
  - unfold keyed. rewrite seq_S, map_app. reflexivity.
  - intros e He. apply in_map_iff in He as (i & <- & Hi). apply in_seq in Hi. cbn [fst]. lia.
Qed.

(** ** The graph *)
Notation graph := (list (N * unit) * list (N * list str) * list (N * list N))%type.
Definition row_step (d : dsl) (g : graph) (r : row) : graph :=
  let '(h, v, e) := g in
  match r with
  | Vrow id => (if accepting (vertices d) id then put (N.of_nat id) tt h else h, put (N.of_nat id) (row_text d r) v, e)
  | Erow id => (h, v, put (N.of_nat id) (map N.of_nat (edges_at d id)) e)
  end.
Definition in_graph (d : dsl) (r : row) : Prop := match r with Vrow id | Erow id => 1 <= id <= length (vertices d) end.
Lemma read_graph_rows : forall d rows h v e, (N.of_nat (length (vertices d)) < two32)%N -> Forall (in_graph d) rows ->
  (forall id x, In x (edges_at d id) -> x <= length (vertices d)) ->
  read_graph (map (row_text d) rows) h v e = Ok (fold_left (row_step d) rows (h, v, e)).
Proof.
  intros d rows h v e Hn HF HE. revert h v e. induction HF as [|r rows Hr HF IH]; intros h v e; [reflexivity|]. cbn [map read_graph fold_left]. destruct r as [id|id]; cbn [in_graph] in Hr.
  - destruct (nth_error (vertices d) (id - 1)) as [x|] eqn:Ex; [|apply nth_error_None in Ex; lia]. cbn [row_text row_step]. unfold accepting. rewrite Ex.
    assert (A : forall i y, nth_error (front_text id x) i = Some y -> vec_at (vertex_record id x) i = Ok y).
    { intros i y Hy. unfold vec_at. rewrite vertex_record_parts, nth_error_app1, Hy by (apply nth_error_Some; congruence). reflexivity. }
    rewrite (A 0 _ eq_refl), (A 1 _ eq_refl). cbn [obind]. rewrite id_small by (unfold two32 in *; lia). cbn [obind]. change (seq_eqb (lit "vertex") (lit "vertex")) with true. cbv iota.
    rewrite (A 2 _ eq_refl). cbn [obind]. rewrite asBool_asString. apply IH.
  - cbn [row_text row_step]. unfold edge_record, vec_at. cbn [nth_error obind skipn]. rewrite id_small by (unfold two32 in *; lia). cbn [obind].
    change (seq_eqb (lit "edge") (lit "vertex")) with false. cbv iota.
    assert (O : forall l, (forall x, In x l -> x <= length (vertices d)) -> omapM stoul32 (map asString_id l) = Ok (map N.of_nat l)).
    { induction l as [|x l IHl]; intros Hl; [reflexivity|]. cbn [map omapM]. rewrite id_small by (specialize (Hl x (or_introl eq_refl)); unfold two32 in *; lia). cbn [obind]. rewrite IHl by (intros y Hy; apply Hl; now right). reflexivity. }
    rewrite O by (intros x; apply HE). cbn [obind]. apply IH.
Qed.
Lemma row_step_comm : forall d g r s, r <> s -> row_step d (row_step d g r) s = row_step d (row_step d g s) r.
Proof.
  intros d [[h v] e] [i|i] [j|j] N; cbn [row_step]; try reflexivity.
  - assert (D : N.of_nat i <> N.of_nat j) by (intros E; apply N; f_equal; lia). rewrite (put_comm _ _ _ _ _ v) by congruence.
    destruct (accepting (vertices d) i), (accepting (vertices d) j); try reflexivity. now rewrite (put_comm _ _ _ _ _ h) by congruence.
  - assert (D : N.of_nat i <> N.of_nat j) by (intros E; apply N; f_equal; lia). now rewrite (put_comm _ _ _ _ _ e) by congruence.
Qed.
Lemma fold_rows_perm : forall d rows rows', Permutation rows rows' -> NoDup rows -> forall g, fold_left (row_step d) rows g = fold_left (row_step d) rows' g.
Proof.
  intros d rows rows' P. induction P as [|r l l' P IH|r s l|l l' l'' P1 IH1 P2 IH2]; intros N g.
  - reflexivity.
  - inversion N; subst. cbn [fold_left]. now apply IH.
  - cbn [fold_left]. rewrite row_step_comm; [reflexivity|]. inversion N as [|? ? N1 _]; subst. intros ->. apply N1. now left.
  - rewrite IH1 by exact N. apply IH2. eapply Permutation_NoDup; eassumption.
Qed.
Definition vmap (d : dsl) : list (N * list str) := keyed (fun id => row_text d (Vrow id)) (seq 1 (length (vertices d))).
Definition emap (d : dsl) : list (N * list N) := keyed (fun id => map N.of_nat (edges_at d id)) (filter (feeding d) (seq 1 (length (vertices d)))).
Definition hmap (d : dsl) : list (N * unit) := keyed (fun _ => tt) (filter (accepting (vertices d)) (seq 1 (length (vertices d)))).
Lemma fold_canonical : forall d n, 
  fold_left (row_step d) (map Vrow (seq 1 n)) ([], [], []) = (keyed (fun _ => tt) (filter (accepting (vertices d)) (seq 1 n)), keyed (fun id => row_text d (Vrow id)) (seq 1 n), []).
Proof.
  intros d. induction n as [|n IH]; [reflexivity|]. rewrite seq_S, map_app, fold_left_app, IH. cbn [map fold_left row_step Nat.add]. pose proof (put_keyed _ (fun id => row_text d (Vrow id)) n) as PK. cbv beta in PK. rewrite PK, (seq_S n 1). f_equal. f_equal.
  rewrite filter_app. cbn [filter Nat.add]. destruct (accepting (vertices d) (S n)).
  - rewrite put_last; [unfold keyed; now rewrite map_app|]. intros e He. apply in_map_iff in He as (i & <- & Hi). apply filter_In in Hi as [Hi _]. apply in_seq in Hi. cbn [fst]. lia.
  - now rewrite app_nil_r.
Qed.
Lemma fold_canonical_edges : forall d h v n, fold_left (row_step d) (map Erow (filter (feeding d) (seq 1 n))) (h, v, []) = (h, v, keyed (fun id => map N.of_nat (edges_at d id)) (filter (feeding d) (seq 1 n))).
Proof.
  intros d h v. induction n as [|n IH]; [reflexivity|]. rewrite seq_S, filter_app, map_app, fold_left_app, IH. cbn [filter Nat.add]. destruct (feeding d (S n)); cbn [map fold_left row_step]; [|now rewrite app_nil_r].
  f_equal. rewrite put_last; [unfold keyed; now rewrite map_app|]. intros e He. apply in_map_iff in He as (i & <- & Hi). apply filter_In in Hi as [Hi _]. apply in_seq in Hi. cbn [fst]. lia.
Qed.
Lemma graph_rows : forall d rows, Permutation rows (map Vrow (seq 1 (length (vertices d))) ++ map Erow (filter (feeding d) (seq 1 (length (vertices d))))) ->
  fold_left (row_step d) rows ([], [], []) = (hmap d, vmap d, emap d).
Proof.
  intros d rows P. rewrite (fold_rows_perm d _ _ P).
  - rewrite fold_left_app, fold_canonical, fold_canonical_edges. reflexivity.
  - eapply Permutation_NoDup; [symmetry; exact P|]. assert (DJ : forall a b, NoDup a -> NoDup b -> NoDup (map Vrow a ++ map Erow b)).
    { clear. induction a as [|x a IH]; intros b Na Nb; cbn [map app].
      - apply FinFun.Injective_map_NoDup; [intros x y E; now injection E|exact Nb].
      - inversion Na as [|? ? N1 N2]; subst. constructor; [|now apply IH]. intros I. apply in_app_or in I as [I|I]; apply in_map_iff in I as (y & E & I); [injection E as ->; contradiction|discriminate]. }
    apply DJ; [apply seq_NoDup|apply NoDup_filter, seq_NoDup].
Qed.

(** ** Creating again, without the text *)
Section Again.
Context (f : nat -> option nat -> dsl * list (N * nat) -> outcome (dsl * list (N * nat))) (id : nat).
Fixpoint again (es : list nat) (st : dsl * list (N * nat)) : outcome (dsl * list (N * nat)) :=
  match es with [] => Ok st | e :: es => do st <- f e (find (N.of_nat id) (snd st)) st; again es st end.
End Again.
Fixpoint recreate (fuel : nat) (d : dsl) (id : nat) (parent : option nat) (st : dsl * list (N * nat)) : outcome (dsl * list (N * nat)) :=
  match fuel with
  | O => UB
  | S fuel =>
      do v <- vertex_at d id;
      let '(d1, created) := st in
      do made <- create_one (N.of_nat id) (with_edges [] v) parent (emap d) d1 created;
      match made with
      | None => Ok st
      | Some d2 => do d2 <- change_all (settings v) (next_id d1) d2; again (recreate fuel d) id (edges v) (d2, put (N.of_nat id) (next_id d1) created)
      end
  end.
Definition reload (d : dsl) : outcome dsl :=
  do st <- fold_left (fun st head => do st <- st; recreate (S (length (vertices d))) d head None st) (inputReceptors d)
             (Ok (new_dsl (optimizer d) (learningRate d) (biasLearningRate d) (loss d), []));
  Ok (fst st).
Lemma existsb_seq : forall id n, existsb (Nat.eqb id) (seq 1 n) = true <-> 1 <= id <= n.
Proof. intros id n. rewrite existsb_In, in_seq. lia. Qed.
Lemma find_vmap : forall d id v, vertex_at d id = Ok v -> find (N.of_nat id) (vmap d) = Some (vertex_record id v).
Proof.
  intros d id v H. apply vertex_at_ok in H as [Hid H]. unfold vmap. rewrite find_keyed. rewrite (proj2 (existsb_seq id _) Hid). cbn [row_text]. now rewrite H.
Qed.
Lemma find_emap : forall d id v, vertex_at d id = Ok v -> match find (N.of_nat id) (emap d) with Some es => es | None => [] end = map N.of_nat (edges v).
Proof.
  intros d id v H. apply vertex_at_ok in H as [Hid H]. unfold emap. rewrite find_keyed. assert (E : edges_at d id = edges v) by (unfold edges_at; now rewrite H).
  destruct (existsb (Nat.eqb id) (filter (feeding d) (seq 1 (length (vertices d))))) eqn:X; [now rewrite E|]. assert (NI : ~ In id (filter (feeding d) (seq 1 (length (vertices d))))) by (rewrite <- existsb_In; congruence).
  destruct (edges v) as [|e es] eqn:Es; [reflexivity|]. exfalso. apply NI. apply filter_In. split; [apply in_seq; lia|]. unfold feeding. now rewrite E.
Qed.
Lemma settings_edges : forall es v, settings (with_edges es v) = settings v.
Proof. now intros es []. Qed.
Lemma create_is_recreate : forall d, Forall machine (vertices d) -> (N.of_nat (length (vertices d)) < two32)%N -> (forall id x, In x (edges_at d id) -> 1 <= x <= length (vertices d)) ->
  forall fuel id v parent st, vertex_at d id = Ok v -> create fuel (vmap d) (emap d) (vertex_record id v) parent st = recreate fuel d id parent st.
Proof.
  intros d HM Hn HE. induction fuel as [|fuel IH]; intros id v parent [d1 created] Hv; [reflexivity|].
  assert (Hv' := Hv). apply vertex_at_ok in Hv' as [Hid Hv']. assert (Mv : machine v) by (rewrite Forall_forall in HM; apply HM; eapply nth_error_In; exact Hv').
  cbn [create recreate]. rewrite read_vertex_ok by (try exact Mv; unfold two32 in *; lia). cbn [obind]. rewrite Hv. cbn [obind]. destruct (create_one _ _ _ _ _ _) as [[d2|]| |]; cbn [obind]; try reflexivity.
  rewrite settings_edges. destruct (change_all (settings v) (next_id d1) d2) as [d3| |]; cbn [obind]; try reflexivity. rewrite (find_emap _ _ _ Hv).
  assert (HEv : forall x, In x (edges v) -> 1 <= x <= length (vertices d)) by (intros x Hx; apply (HE id); unfold edges_at; now rewrite Hv').
  generalize (d3, put (N.of_nat id) (next_id d1) created). induction (edges v) as [|e es IHe]; intros st; cbn [map again]; [reflexivity|].
  destruct (vertex_at d e) as [u| |] eqn:Eu.
  - rewrite (find_vmap _ _ _ Eu). rewrite (IH _ _ _ _ Eu). destruct (recreate fuel d e _ st) as [st'| |]; cbn [obind]; try reflexivity. apply IHe. intros x Hx. apply HEv. now right.
  - exfalso. specialize (HEv e (or_introl eq_refl)). unfold vertex_at, vec_at in Eu. destruct (Nat.eqb_spec e 0); [lia|]. destruct (nth_error (vertices d) (e - 1)) eqn:X; discriminate Eu.
  - exfalso. specialize (HEv e (or_introl eq_refl)). unfold vertex_at, vec_at in Eu. destruct (Nat.eqb_spec e 0); [lia|]. destruct (nth_error (vertices d) (e - 1)) eqn:X; [discriminate Eu|]. apply nth_error_None in X. lia.
Qed.
Lemma load_is_reload : forall d rows, Forall machine (vertices d) -> fits15 (learningRate d) -> fits15 (biasLearningRate d) -> (N.of_nat (length (vertices d)) < two32)%N ->
  (forall id x, In x (edges_at d id) -> 1 <= x <= length (vertices d)) -> inputReceptors d = filter (accepting (vertices d)) (seq 1 (length (vertices d))) ->
  Permutation rows (map Vrow (seq 1 (length (vertices d))) ++ map Erow (filter (feeding d) (seq 1 (length (vertices d))))) ->
  load_records (header d ++ map (row_text d) rows) = reload d.
Proof.
  intros d rows HM HR HB Hn HE HH HP. unfold load_records. cbv zeta. change (nth 0 (header d ++ map (row_text d) rows) [[]]) with [lit "optimizer"; optimizerTypeToString (optimizer d)].
  change (nth 1 (header d ++ map (row_text d) rows) [[]]) with [lit "learningRate"; asString_float (learningRate d)].
  change (nth 2 (header d ++ map (row_text d) rows) [[]]) with [lit "biasLearningRate"; asString_float (biasLearningRate d)].
  change (nth 3 (header d ++ map (row_text d) rows) [[]]) with [lit "loss"; lossTypeToString (loss d)].
  change (skipn 4 (header d ++ map (row_text d) rows)) with (map (row_text d) rows).
  assert (NM : forall n x, named n [n; x] = Ok x) by (intros n x; unfold named, vec_at; cbn [nth_error obind]; destruct (seq_eqb_spec n n); [reflexivity|congruence]).
  rewrite !NM. cbn [obind]. rewrite optimizer_name. cbn [obind]. rewrite stof_fits by exact HR. cbn [obind]. rewrite ?NM. cbn [obind]. rewrite stof_fits by exact HB. cbn [obind]. rewrite ?NM. cbn [obind]. rewrite loss_name. cbn [obind].
  rewrite read_graph_rows; [|exact Hn| |].
  - cbn [obind]. rewrite (graph_rows d rows HP). unfold reload. f_equal. unfold hmap. rewrite HH.
    assert (LV : length (vmap d) = length (vertices d)) by (unfold vmap, keyed; rewrite map_length, seq_length; reflexivity). rewrite LV.
    assert (RNG : forall h, In h (filter (accepting (vertices d)) (seq 1 (length (vertices d)))) -> 1 <= h <= length (vertices d)) by (intros h Hh; apply filter_In in Hh as [Hh _]; apply in_seq in Hh; lia).
    assert (G : forall hs, (forall h, In h hs -> 1 <= h <= length (vertices d)) -> forall st,
      fold_left (fun st head => do st <- st; match find (fst head) (vmap d) with None => UB | Some m => create (S (length (vertices d))) (vmap d) (emap d) m None st end) (keyed (fun _ => tt) hs) st =
      fold_left (fun st head => do st <- st; recreate (S (length (vertices d))) d head None st) hs st).
    { clear RNG. induction hs as [|h hs IH]; intros RNG st; [reflexivity|].
      cbn [keyed map fold_left fst]. rewrite IH by (intros x Hx; apply RNG; now right). f_equal. destruct st as [st| |]; cbn [obind]; try reflexivity.
      specialize (RNG h (or_introl eq_refl)). destruct (nth_error (vertices d) (h - 1)) as [v|] eqn:Ev; [|apply nth_error_None in Ev; lia]. assert (VA : vertex_at d h = Ok v) by (now apply vertex_at_ok).
  rewrite (find_vmap _ _ _ VA). now apply create_is_recreate. }
    exact (G _ RNG _).
  - eapply Permutation_Forall; [symmetry; exact HP|]. apply Forall_app. split; apply Forall_forall; intros r Hr; apply in_map_iff in Hr as (i & <- & Hi); [|apply filter_In in Hi as [Hi _]]; apply in_seq in Hi; cbn [in_graph]; lia.
  - intros id x Hx. apply (HE id x Hx).
Qed.

(** ** The file *)
Definition clean_char (c : ascii) : bool := negb (ceq c DQ) && negb (ceq c ":") && negb (ceq c NL) && negb (ceq c "<").
Definition clean (f : str) : Prop := forallb clean_char f = true /\ trimmed f.
Lemma clean_plain : forall f, clean f -> plain_field ":" f.
Proof.
  intros f [C T]. rewrite forallb_forall in C. assert (NI : forall x, clean_char x = false -> ~ In x f) by (intros x Hx I; rewrite (C _ I) in Hx; discriminate).
  constructor.
  - exact T.
  - intros (a & b & E & _). apply (NI DQ); [reflexivity|]. rewrite E. now left.
  - intros (a & b & E). apply (NI DQ); [reflexivity|]. rewrite E. apply in_or_app. right. now left.
  - intros _. repeat split; apply NI; reflexivity.
Qed.
Definition solid (c : ascii) : bool := clean_char c && negb (isspace c).
Lemma solid_clean : forall f, forallb solid f = true -> clean f.
Proof.
  intros f H. rewrite forallb_forall in H. split.
  - apply forallb_forall. intros c Hc. specialize (H _ Hc). unfold solid in H. now apply andb_true_iff in H.
  - assert (W : forall c, In c f -> ~ white c).
    { intros c Hc Wc. specialize (H _ Hc). unfold solid in H. apply andb_true_iff in H as [_ H]. apply negb_true_iff in H. unfold isspace in H. apply orb_false_iff in H as [H1 H2]. apply N.eqb_neq in H1.
      apply andb_false_iff in H2. rewrite !N.leb_gt in H2. unfold white in Wc. lia. }
    split; intros c t ->; apply W; [now left|]. apply in_or_app. right. now left.
Qed.
Lemma digit_solid : forall c, isdigit c = true -> solid c = true.
Proof.
  intros c H. destruct (digit_not_white c H) as (W & _). unfold solid. rewrite W, andb_true_r. unfold isdigit in H. apply andb_true_iff in H as [H1 H2]. apply N.leb_le in H1. apply N.leb_le in H2.
  unfold clean_char. repeat (apply andb_true_iff; split); apply negb_true_iff; match goal with |- ceq _ ?x = false => destruct (ceq_spec c x) as [->|]; [exfalso; cbn in H1, H2; lia|reflexivity] end.
Qed.
Lemma decimal_solid : forall ds n, is_decimal ds n -> forallb solid ds = true.
Proof. intros ds n [F _]. apply forallb_forall. rewrite Forall_forall in F. intros c Hc. apply digit_solid. auto. Qed.
Lemma uint_clean : forall n, clean (asString_uint n).
Proof. intros n. apply solid_clean. eapply decimal_solid. apply asString_uint_ok. Qed.
Lemma bool_clean : forall b, clean (asString_bool b).
Proof. intros b. apply solid_clean. now destruct b. Qed.
Lemma float_clean : forall x, clean (asString_float x).
Proof.
  intros x. apply solid_clean. unfold asString_float, fixed15. rewrite !forallb_app. cbn [forallb]. destruct (last_digits_ok 15 (Z.abs_N (ZnearestE (x * 10 ^ 15)))) as [D _].
  rewrite (decimal_solid _ _ D). rewrite (decimal_solid _ _ (proj2 (asString_uint_ok _))). now destruct (Rlt_dec x 0).
Qed.
Lemma node_clean : forall t, clean (nodeTypeToString t).
Proof. intros t. apply solid_clean. now destruct t. Qed.
Lemma activation_clean : forall t, clean (activationTypeToString t).
Proof. intros t. apply solid_clean. now destruct t. Qed.
Lemma loss_clean : forall t, clean (lossTypeToString t).
Proof. intros t. apply solid_clean. now destruct t. Qed.
Lemma optimizer_clean : forall t, clean (optimizerTypeToString t).
Proof.
  intros t. split; [now destruct t|]. split.
  - intros c r E W. destruct t; cbn in E; injection E as <- _; unfold white in W; cbn in W; lia.
  - intros c r E W. apply (f_equal (fun l => hd c (rev l))) in E. rewrite rev_app_distr in E. cbn [rev app hd] in E. destruct t; cbn in E; subst c; unfold white in W; cbn in W; lia.
Qed.
Lemma lit_clean : forall s, forallb solid (lit s) = true -> clean (lit s).
Proof. intros s. apply solid_clean. Qed.
Lemma row_clean : forall d r, in_graph d r -> row_text d r <> [] /\ Forall clean (row_text d r).
Proof.
  assert (SH : forall s, Forall clean (shape_text s)) by (intros [[a b] c]; repeat constructor; apply uint_clean).
  intros d [id|id] H; cbn [in_graph row_text] in *.
  - destruct (nth_error (vertices d) (id - 1)) as [v|] eqn:Ev; [|apply nth_error_None in Ev; lia]. split; [discriminate|]. rewrite vertex_record_parts. rewrite !Forall_app. split; [|split; [|split]].
    + unfold front_text. repeat apply Forall_cons; try apply Forall_nil; try apply uint_clean; try apply bool_clean; try apply node_clean; try apply activation_clean. now apply lit_clean.
    + apply Forall_flat_map. apply Forall_forall. intros s _. apply SH.
    + apply SH.
    + unfold back_text. repeat apply Forall_cons; try apply Forall_nil; try apply uint_clean; try apply bool_clean; apply float_clean.
  - split; [discriminate|]. unfold edge_record. apply Forall_cons; [now apply lit_clean|]. apply Forall_cons; [apply uint_clean|]. apply Forall_forall. intros x Hx. apply in_map_iff in Hx as (y & <- & _). apply uint_clean.
Qed.
Lemma header_clean : forall d, Forall (fun r => r <> [] /\ Forall clean r) (header d).
Proof.
  intros d. unfold header. repeat apply Forall_cons; try apply Forall_nil; (split; [discriminate|]); repeat apply Forall_cons; try apply Forall_nil; try apply float_clean; try apply optimizer_clean; try apply loss_clean; now apply lit_clean.
Qed.
Lemma file_read_back : forall in_range rs, Forall (fun r => r <> [] /\ Forall clean r) rs ->
  read_records ":" (length (write_records in_range ":" rs)) (open_path [write_records in_range ":" rs] false) = Ok rs.
Proof.
  intros in_range rs H. apply delimited_round_trip_partial; [discriminate|discriminate| |].
  - eapply Forall_impl; [|exact H]. intros r [N F]. split; [exact N|]. eapply Forall_impl; [|exact F]. intros f. apply clean_plain.
  - unfold write_records, write_lines. clear H. induction rs as [|r rs IH]; [apply Nat.le_refl|]. cbn [map flat_map length]. rewrite !app_length. cbn [length]. lia.
Qed.
