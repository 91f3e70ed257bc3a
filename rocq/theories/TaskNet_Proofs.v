(** The network of a task: its vertices, and their shapes. *)
From Coq Require Import List Arith Bool NArith ZArith QArith Reals Lia.
From Verif Require Import Outcome Chars NumText_Model ModelFile_Model ModelFile_Spec ModelFile_Proofs ModelFile_Text ModelFile_Order ModelFile_Props TaskNet_Model TaskNet_Spec.
Import ListNotations.
Local Open Scope nat_scope.

Lemma update_at : forall {A} (l1 : list A) x l2 f n, n = length l1 -> update n f (l1 ++ x :: l2) = l1 ++ f x :: l2.
Proof. intros A l1 x l2 f n ->. induction l1 as [|a l1 IH]; cbn; [reflexivity|now rewrite IH]. Qed.
Lemma vec_mid : forall {A} (l1 : list A) x l2, vec_at (l1 ++ x :: l2) (length l1) = Ok x.
Proof. intros A l1 x l2. unfold vec_at. now rewrite nth_error_app2, Nat.sub_diag by lia. Qed.
Lemma vertex_mid : forall d l1 x l2 id, vertices d = l1 ++ x :: l2 -> id = S (length l1) -> vertex_at d id = Ok x.
Proof. intros d l1 x l2 id E ->. unfold vertex_at. cbn [Nat.eqb]. rewrite E, Nat.sub_1_r. cbn [Nat.pred]. apply vec_mid. Qed.
Lemma with_twice : forall d a b, with_vertices (with_vertices d a) b = with_vertices d b.
Proof. reflexivity. Qed.
Lemma change_step : forall d l1 v l2 v' s id cs, vertices d = l1 ++ v :: l2 -> id = S (length l1) -> set_vertex s v = Ok v' -> run (Change s id :: cs) d = run cs (with_vertices d (l1 ++ v' :: l2)).
Proof.
  intros d l1 v l2 v' s id cs E Ei Es. cbn [run run_call]. unfold change. rewrite (vertex_mid d l1 v l2 id E Ei). cbn [obind]. rewrite Es. cbn [obind]. rewrite E, update_at; [reflexivity|lia].
Qed.
Lemma layer_step : forall d l1 p l2 i o t f a v parent cs, vertices d = l1 ++ p :: l2 -> parent = S (length l1) -> new_plain t i o f false a = Ok v ->
  run (Add_layer parent i o t f a :: cs) d = run cs (with_vertices d (l1 ++ with_edges (edges p ++ [S (length (l1 ++ p :: l2))]) p :: l2 ++ [v])).
Proof.
  intros d l1 p l2 i o t f a v parent cs E Ep Ev. cbn [run run_call]. unfold add_layer. rewrite (vertex_mid d l1 p l2 parent E Ep). cbn [obind]. rewrite Ev. cbn [obind].
  unfold add_edge, add_vertex. cbn [vertices with_vertices next_id]. rewrite E, <- app_assoc. cbn [app]. rewrite update_at by lia. unfold next_id. rewrite E. reflexivity.
Qed.
Lemma change_next : forall d l1 v l2 v' s id cs, id = S (length l1) -> set_vertex s v = Ok v' -> run (Change s id :: cs) (with_vertices d (l1 ++ v :: l2)) = run cs (with_vertices d (l1 ++ v' :: l2)).
Proof. intros d l1 v l2 v' s id cs Ei Es. now rewrite (change_step (with_vertices d (l1 ++ v :: l2)) l1 v l2 v' s id cs eq_refl Ei Es). Qed.
Lemma layer_next : forall d l1 p l2 i o t f a v parent cs, parent = S (length l1) -> new_plain t i o f false a = Ok v ->
  run (Add_layer parent i o t f a :: cs) (with_vertices d (l1 ++ p :: l2)) = run cs (with_vertices d (l1 ++ with_edges (edges p ++ [S (length (l1 ++ p :: l2))]) p :: l2 ++ [v])).
Proof. intros d l1 p l2 i o t f a v parent cs Ep Ev. now rewrite (layer_step (with_vertices d (l1 ++ p :: l2)) l1 p l2 i o t f a v parent cs eq_refl Ep Ev). Qed.

(** ** The vertices *)
Definition plain (t : layer_type) (a : activation) (input output : shape) (head out bias : bool) (es : list nat) : vertex :=
  {| node_type := t; activation_type := a; acceptsInput := head; producesOutput := out; materialized := false; use_bias := bias; bits := 32;
     inputShapes := [input]; outputShape := output; filters := 0; kernel_size := 0; use_l2_regularization := layer_eqb t full; use_normalization := false;
     use_norm_clipping := false; norm_clipping_threshold := 5; dropout_rate := 0; regularization_strength := to_float (2 / 100); edges := es |}.
(** The settings of a hidden layer. *)
Definition configured (cce memory : bool) (v : vertex) : vertex :=
  let '(Build_vertex t a i o m ub bt ins out fl ks l2 nm cl th dr rs es) := v in
  Build_vertex t a i o (if memory then false else m) ub (if memory then 8%N else bt) ins out fl ks true (cce || nm) true th dr rs es.

Section Tail.
Context (given : list column) (expected : list shape) (g : goal) (complexity : Q).
Notation cce := (categorical expected g).
Notation memory := (is_memory g).
Notation last_activation := (if cce then softmax else sigmoid).
Lemma settings_run : forall d l1 v l2 id cs, vertices d = l1 ++ v :: l2 -> id = S (length l1) -> weighted (node_type v) = true ->
  run (settings expected g id ++ cs) d = run cs (with_vertices d (l1 ++ configured cce memory v :: l2)).
Proof.
  intros d l1 v l2 id cs E Ei W. unfold settings. destruct v as [t a i o m ub bt ins out fl ks l2r nm cl th dr rs es]. cbn [node_type] in W.
  cbn [app]. rewrite (change_step d l1 _ l2 _ (Use_l2 true) id _ E Ei) by (cbn [set_vertex node_type]; rewrite W; reflexivity).
  rewrite (change_next _ l1 _ l2 _ (Use_norm_clipping true) id _ Ei) by reflexivity.
  destruct cce; cbn [app].
  - rewrite (change_next _ l1 _ l2 _ (Use_normalization true) id _ Ei) by (cbn [set_vertex node_type]; rewrite W; reflexivity). destruct memory; cbn [app]; [|reflexivity].
    rewrite (change_next _ l1 _ l2 _ (Bits 8) id _ Ei) by reflexivity. rewrite (change_next _ l1 _ l2 _ (Materialized false) id _ Ei) by reflexivity. reflexivity.
  - destruct memory; cbn [app]; [|reflexivity]. rewrite (change_next _ l1 _ l2 _ (Bits 8) id _ Ei) by reflexivity. rewrite (change_next _ l1 _ l2 _ (Materialized false) id _ Ei) by reflexivity. reflexivity.
Qed.
Definition output_vertex (input s : shape) : vertex := plain full last_activation input s false true true [].
Lemma outputs_run : forall l d l1 p l2 input parent id, vertices d = l1 ++ p :: l2 -> parent = S (length l1) -> id = S (length (vertices d)) ->
  run (outputs_from expected g parent input id l) d = Ok (with_vertices d (l1 ++ with_edges (edges p ++ seq id (length l)) p :: l2 ++ map (output_vertex input) l)).
Proof.
  induction l as [|s l IH]; intros d l1 p l2 input parent id E Ep Ei; cbn [outputs_from].
  - cbn [run length seq map]. rewrite !app_nil_r. f_equal. destruct d as [o1 o2 o3 o4 vs rc]. cbn in *. unfold with_vertices. cbn. rewrite E. f_equal. now destruct p.
  - cbn [app]. rewrite (layer_step d l1 p l2 _ _ _ _ _ _ parent _ E Ep) by reflexivity. rewrite <- E. rewrite <- Ei.
    erewrite (change_step _ (l1 ++ with_edges (edges p ++ [id]) p :: l2) _ [] _ (Use_bias true) id).
    2: { cbn [vertices with_vertices]. rewrite <- app_assoc. cbn [app]. reflexivity. }
    2: { rewrite Ei, E, !app_length. cbn [length]. reflexivity. }
    2: { reflexivity. }
    rewrite with_twice. erewrite (IH _ l1 _ _ input parent (S id)).
    2: { cbn [vertices with_vertices]. rewrite <- app_assoc. cbn [app]. reflexivity. }
    2: { exact Ep. }
    2: { cbn [vertices with_vertices]. rewrite Ei, E, !app_length. cbn [length]. rewrite ?app_length. cbn [length]. lia. }
    rewrite with_twice. f_equal. f_equal. f_equal. destruct p as [? ? ? ? ? ? ? ? ? ? ? ? ? ? ? ? ? pe]. cbn [with_edges edges length seq map]. rewrite <- !app_assoc. reflexivity.
Qed.
(** The tail of the network, after the first layer. *)
Notation total := (1, total_values expected, 1)%N.
Definition hidden (b : nat) (o1 o2 : shape) : list vertex :=
  [plain dropout linear o1 o1 false false false [S (S b)]; configured cce memory (plain full leaky o1 o2 false false true [3 + b])]
  ++ (if cce then [plain dropout linear o2 o2 false false false [4 + b]; plain full sigmoid o2 total false false false (seq (5 + b) (length expected))]
      else [plain dropout linear o2 o2 false false false (seq (4 + b) (length expected))])
  ++ map (output_vertex (if cce then total else o2)) expected.
Lemma rest_run : forall d pre l1 b o1 conv, vertices d = pre ++ [l1] -> b = S (length pre) -> weighted (node_type l1) = true -> edges l1 = [] ->
  run (rest given expected g complexity b o1 conv) d = Ok (with_vertices d (pre ++ with_edges [S b] (configured cce memory l1) :: hidden b o1 (1, hidden_size given expected complexity conv, 1)%N)).
Proof.
  intros d pre l1 b o1 conv E Eb W Ee. unfold rest. cbv zeta. set (o2 := (1, hidden_size given expected complexity conv, 1)%N).
  rewrite (settings_run d pre l1 [] b _ E Eb W). cbn [app].
  rewrite (layer_next _ pre _ [] _ _ _ _ _ _ b _ Eb) by reflexivity. cbn [app].
  assert (Ex : edges (configured cce memory l1) = []) by (destruct l1; exact Ee). rewrite Ex. cbn [app].
  assert (Eb2 : S (length (pre ++ [configured cce memory l1])) = S b) by (rewrite app_length; cbn [length]; lia). rewrite Eb2.
  set (l1' := with_edges [S b] (configured cce memory l1)).
  erewrite (layer_step _ (pre ++ [l1']) (plain dropout linear o1 o1 false false false []) [] _ _ _ _ _ _ (S b)).
  2: { cbn [vertices with_vertices]. rewrite <- app_assoc. reflexivity. }
  2: { rewrite app_length. cbn [length]. lia. }
  2: { reflexivity. }
  rewrite with_twice. cbn [app]. replace (S (length ((pre ++ [l1']) ++ [plain dropout linear o1 o1 false false false []]))) with (S (S b)) by (rewrite !app_length; cbn [length]; lia).
  cbn [edges plain app with_edges]. rewrite <- app_assoc. cbn [app].
  fold (plain dropout linear o1 o1 false false false [S (S b)]).
  set (dr1 := plain dropout linear o1 o1 false false false [S (S b)]).
  erewrite (change_step _ (pre ++ [l1'; dr1]) (plain full leaky o1 o2 false false false []) [] (plain full leaky o1 o2 false false true []) (Use_bias true) (S (S b))).
  2: { cbn [vertices with_vertices]. rewrite <- app_assoc. reflexivity. }
  2: { rewrite app_length. cbn [length]. lia. }
  2: { reflexivity. }
  rewrite with_twice.
  erewrite (settings_run _ (pre ++ [l1'; dr1]) (plain full leaky o1 o2 false false true []) [] (S (S b))).
  2: { reflexivity. }
  2: { rewrite app_length. cbn [length]. lia. }
  2: { reflexivity. }
  rewrite with_twice.
  erewrite (layer_step _ (pre ++ [l1'; dr1]) (configured cce memory (plain full leaky o1 o2 false false true [])) [] _ _ _ _ _ _ (S (S b))).
  2: { reflexivity. }
  2: { rewrite app_length. cbn [length]. lia. }
  2: { reflexivity. }
  rewrite with_twice. cbn [app]. replace (S (length ((pre ++ [l1'; dr1]) ++ [configured cce memory (plain full leaky o1 o2 false false true [])]))) with (3 + b) by (rewrite !app_length; cbn [length]; lia).
  change (with_edges (edges (configured cce memory (plain full leaky o1 o2 false false true [])) ++ [3 + b]) (configured cce memory (plain full leaky o1 o2 false false true []))) with (configured cce memory (plain full leaky o1 o2 false false true [3 + b])).
  set (l2 := configured cce memory (plain full leaky o1 o2 false false true [3 + b])). rewrite <- app_assoc. cbn [app]. unfold hidden. fold dr1 l2. destruct cce.
  - erewrite (layer_step _ (pre ++ [l1'; dr1; l2]) (plain dropout linear o2 o2 false false false []) [] _ _ _ _ _ _ (3 + b)).
    2: { cbn [vertices with_vertices]. rewrite <- app_assoc. reflexivity. }
    2: { rewrite app_length. cbn [length]. lia. }
    2: { reflexivity. }
    rewrite with_twice. cbn [app]. replace (S (length ((pre ++ [l1'; dr1; l2]) ++ [plain dropout linear o2 o2 false false false []]))) with (4 + b) by (rewrite !app_length; cbn [length]; lia).
    cbn [edges plain app with_edges]. fold (plain dropout linear o2 o2 false false false [4 + b]). set (dr2 := plain dropout linear o2 o2 false false false [4 + b]).
    erewrite (outputs_run expected _ (pre ++ [l1'; dr1; l2; dr2]) (plain full sigmoid o2 total false false false []) [] total (4 + b) (5 + b)).
    2: { cbn [vertices with_vertices]. rewrite <- !app_assoc. reflexivity. }
    2: { rewrite app_length. cbn [length]. lia. }
    2: { cbn [vertices with_vertices]. rewrite !app_length. cbn [length]. lia. }
    rewrite with_twice. cbn [edges plain app with_edges]. rewrite <- app_assoc. reflexivity.
  - erewrite (outputs_run expected _ (pre ++ [l1'; dr1; l2]) (plain dropout linear o2 o2 false false false []) [] o2 (3 + b) (4 + b)).
    2: { cbn [vertices with_vertices]. rewrite <- app_assoc. reflexivity. }
    2: { rewrite app_length. cbn [length]. lia. }
    2: { cbn [vertices with_vertices]. rewrite !app_length. cbn [length]. lia. }
    rewrite with_twice. cbn [edges plain app with_edges]. rewrite <- app_assoc. reflexivity.
Qed.
End Tail.
