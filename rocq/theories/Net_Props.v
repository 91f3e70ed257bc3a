(** C100: a network whose shapes fit together predicts and trains. *)
From Coq Require Import List Arith Bool NArith Reals Lia Lra.
From Verif Require Import Outcome Tensor_Model Tensor_Spec Activation_Model Layer_Model Graph_Model Graph_Spec Graph_Props Net_Model Net_Spec Net_Proofs Net_Vertex Net_Graph Net_Flow Net_Train Net_Clogged.
From Verif Require Import Chars NumText_Model.
From Verif Require ModelFile_Model ModelFile_Spec ModelFile_Proofs ModelFile_Props Loss_Model MatMul_Proofs Algebra_Proofs Activation_Props Layer_Props.
Import ListNotations.
Local Open Scope nat_scope.

(** ** Predicting *)
(** A network made with the DSL, in which each layer can work with the shapes that arrive, predicts for every record of
    the declared shapes, whatever the values of the parameters, in training and after: no exception, no undefined
    behaviour, and the outputs have the shapes [sh]. *)
(** Partial, C100: nothing but the hypothesis [well_shaped] sees to it that the shapes fit, see [unchecked_shapes_refuted]. *)
Theorem network_predicts_partial : forall cs o r rb l d net sh, ModelFile_Spec.joins_something cs -> ModelFile_Model.run cs (ModelFile_Model.new_dsl o r rb l) = Ok d -> ModelFile_Model.build d = Ok net ->
  outputs_end d -> well_shaped d net sh ->
  exists fuel0, forall fuel ps random training given st, fuel0 <= fuel -> all_fit d ps -> given_fit d given -> idle (network d net) (next_input st) ->
  exists st' ys, predict (network d net) (forward_at d ps random training) fuel given st = (st', Ok ys) /\ outputs_fit (network d net) sh ys /\ idle (network d net) (next_input st').
Proof.
  intros cs o r rb l d net sh J Rn Bd OE W. destruct (ModelFile_Props.program_ok _ _ _ _ _ _ J Rn) as [D HI].
  destruct (prediction_computes_the_values_partial (network d net) (network_well_formed _ d net D HI Bd) (network_outputs _ d net D HI Bd OE)) as [fuel0 H]. exists fuel0. intros fuel ps random training given st Hf F G Hi.
  destruct (H T (forward_at d ps random training) fuel given _ st Hf (given_count d net given G) (flow_values _ d net D HI Bd sh W ps F random training given G) Hi) as (st' & calls & E & I' & _).
  exists st'. eexists. split; [exact E|]. split; [|exact I']. exact (flow_outputs _ d net D HI Bd sh W ps F random training given G).
Qed.
Print Assumptions network_predicts_partial.

(** It computes what its description says: each input applies its layers to its given tensor, every other vertex to the
    outputs of the vertices connected to it, and the outputs of the network are those of its output vertices. *)
(** Partial, C100: as above. *)
Theorem network_computes_partial : forall cs o r rb l d net sh, ModelFile_Spec.joins_something cs -> ModelFile_Model.run cs (ModelFile_Model.new_dsl o r rb l) = Ok d -> ModelFile_Model.build d = Ok net ->
  outputs_end d -> well_shaped d net sh ->
  exists fuel0, forall fuel ps random training given st, fuel0 <= fuel -> all_fit d ps -> given_fit d given -> idle (network d net) (next_input st) ->
  exists st' value, predict (network d net) (forward_at d ps random training) fuel given st = (st', Ok (map value (outputs (network d net)))) /\
    (forall i id v x, nth_error (ModelFile_Model.inputReceptors d) i = Some id -> nth_error given i = Some x -> ModelFile_Model.vertex_at d id = Ok v -> vertex_forward v (ps id) (random id) training [x] = Ok (value id)) /\
    (forall id v, ModelFile_Model.vertex_at d id = Ok v -> ModelFile_Model.acceptsInput v = false ->
       vertex_forward v (ps id) (random id) training (map value (ModelFile_Spec.arriving id (ModelFile_Model.connections net))) = Ok (value id)) /\
    (forall id v, ModelFile_Model.vertex_at d id = Ok v -> shaped (value id) (sh id)).
Proof.
  intros cs o r rb l d net sh J Rn Bd OE W. destruct (ModelFile_Props.program_ok _ _ _ _ _ _ J Rn) as [D HI].
  destruct (prediction_computes_the_values_partial (network d net) (network_well_formed _ d net D HI Bd) (network_outputs _ d net D HI Bd OE)) as [fuel0 H]. exists fuel0. intros fuel ps random training given st Hf F G Hi.
  pose proof (flow_values _ d net D HI Bd sh W ps F random training given G) as V.
  destruct (H T (forward_at d ps random training) fuel given _ st Hf (given_count d net given G) V Hi) as (st' & calls & E & _ & _). destruct V as [V1 V2].
  exists st'. eexists. split; [exact E|]. split; [|split].
  - intros i id v x Hh Hx Ev. specialize (V1 i id x Hh Hx). unfold forward_at in V1. rewrite Ev in V1. exact V1.
  - intros id v Ev A. assert (N : ins (network d net) id <> []) by (intros Z; apply (head_ins _ d net D HI Bd id v Ev) in Z; congruence). specialize (V2 id N). unfold forward_at in V2 at 1. rewrite Ev in V2. cbn [obind] in V2. rewrite <- (arriving_ins d net), map_map. exact V2.
  - intros id v Ev. now apply (flow _ d net D HI Bd sh W ps F random training given G id v).
Qed.
Print Assumptions network_computes_partial.

(** ** What a layer computes *)
(** A fully connected layer reads its input row by row, multiplies it with the weights, adds the bias, and applies the
    activation, in training and after. *)
Theorem dense_vertex_computes : forall v p random training x r c n f w b, ModelFile_Model.node_type v = ModelFile_Model.full -> ModelFile_Model.use_normalization v = false ->
  ModelFile_Model.activation_type v <> ModelFile_Model.softmax -> input_shape v = (r, c, 1) -> output_shape v = (1, n, 1) -> 0 < r -> 0 < c -> is_tensor x r c 1 f ->
  is_tensor (weights p) (r * c) n 1 w -> (ModelFile_Model.use_bias v = true -> is_tensor (biases p) 1 n 1 b) ->
  exists y, vertex_forward v p random training [x] = Ok y /\
    is_tensor y 1 n 1 (fun _ j _ => formula (ModelFile_Model.activation_type v)
                                     (Sum rops (r * c)%nat (fun i => f (i / c)%nat (i mod c) 0%nat * w i j 0%nat) + (if ModelFile_Model.use_bias v then b 0%nat j 0%nat else 0)))%R.
Proof.
  intros v p random training x r c n f w b Et En Ea Ei Eo Hr Hc Hx Hw Hb. unfold vertex_forward, layers_of. rewrite Et, En, Ei. cbn [fst ModelFile_Model.weighted ModelFile_Model.layer_eqb orb].
  set (a := activation_of (ModelFile_Model.activation_type v)) in *. assert (Ea' : a <> Softmax) by (unfold a; destruct (ModelFile_Model.activation_type v); cbn; congruence).
  assert (Fa : forall x, Activation_Props.textbook a x = formula (ModelFile_Model.activation_type v) x) by (intros x0; unfold a; destruct (ModelFile_Model.activation_type v); reflexivity).
  assert (Q : exists u, chain_forward v p random training (if 1 <? r then [Flatten] else []) [x] = Ok (if 1 <? r then [[x]] else [], u) /\ is_tensor u 1 (r * c) 1 (fun _ i _ => f (i / c) (i mod c) 0)).
  { destruct (Layer_Props.flatten_gradient_partial x (uniform 1 (r * c) 1 0%R) r c f (fun _ _ _ => 0%R) Hr Hc Hx) as (u & sh & _ & _ & Eu & U & _). { repeat split. }
    destruct (Nat.ltb_spec 1 r) as [R1|R1].
    - exists u. cbn [chain_forward layer_forward]. rewrite Eu. cbn [obind fst snd]. split; [reflexivity|exact U].
    - assert (r = 1) as -> by lia. exists x. split; [reflexivity|]. unfold flatten_forward in Eu. rewrite (proj1 Hx) in Eu. injection Eu as <- _. exact U. }
  destruct Q as (u & Eu & U).
  destruct (MatMul_Proofs.multiply_element rops u (weights p) 1 (r * c) n 1 _ w U Hw) as (z & Ez & Z).
  assert (Q : exists q, chain_forward v p random training (if ModelFile_Model.use_bias v then [Bias] else []) [z] = Ok (if ModelFile_Model.use_bias v then [[z]] else [], q) /\
    is_tensor q 1 n 1 (fun _ j _ => Sum rops (r * c)%nat (fun i => f (i / c)%nat (i mod c) 0%nat * w i j 0%nat) + (if ModelFile_Model.use_bias v then b 0%nat j 0%nat else 0))%R).
  { destruct (ModelFile_Model.use_bias v) eqn:Eb.
    - destruct (MatMul_Proofs.pointwise_element Rplus z (biases p) 1 n 1 _ b Z (Hb eq_refl)) as (q & Eq & Q). exists q. cbn [chain_forward layer_forward bias_forward new_bias bias_values]. unfold add_view. cbn [add rops]. rewrite Eq. cbn [obind fst snd].
      split; [reflexivity|]. eapply Algebra_Proofs.is_tensor_ext; [exact Q|]. intros i j k Hi _ Hk. cbv beta. replace i with 0%nat by lia. replace k with 0%nat by lia. reflexivity.
    - exists z. split; [reflexivity|]. eapply Algebra_Proofs.is_tensor_ext; [exact Z|]. intros i j k Hi _ Hk. cbv beta. replace i with 0%nat by lia. replace k with 0%nat by lia. cbn [mul rops]. lra. }
  destruct Q as (q & Eq & Q). destruct (Activation_Props.activation_elementwise a q _ _ _ _ Ea' Q) as (y & Ey & Y). exists y. split; [|eapply Algebra_Proofs.is_tensor_ext; [exact Y|]; intros; apply Fa].
  assert (App : forall l1 l2 xs seen t, chain_forward v p random training l1 xs = Ok (seen, t) -> l2 <> [] -> chain_forward v p random training (l1 ++ l2) xs = (do r2 <- chain_forward v p random training l2 [t]; Ok (seen ++ fst r2, snd r2)) \/ l1 = []).
  { intros l1. induction l1 as [|l l1 IH]; intros l2 xs seen t E N; [now right|left]. cbn [chain_forward app] in *. destruct (layer_forward v p random training l xs) as [y1| |]; cbn [obind] in *; try discriminate.
    destruct l1 as [|l' l1].
    - cbn [chain_forward app obind fst snd] in *. injection E as <- <-. cbn [app]. destruct (chain_forward v p random training l2 [y1]) as [[? ?]| |]; reflexivity.
    - destruct (chain_forward v p random training (l' :: l1) [y1]) as [[seen1 t1]| |] eqn:E1; cbn [obind fst snd] in E; try discriminate. injection E as <- <-.
      destruct (IH l2 [y1] seen1 t1 E1 N) as [H|H]; [|discriminate]. rewrite H. destruct (chain_forward v p random training l2 [t1]) as [[? ?]| |]; reflexivity. }
  assert (Tail : (do r2 <- chain_forward v p random training (Full :: (if ModelFile_Model.use_bias v then [Bias] else []) ++ [] ++ [Activate]) [u]; Ok (snd r2)) = Ok y).
  { cbn [chain_forward layer_forward]. unfold fc_forward. cbn [new_fc fc_weights].
    assert (Ez' : (do r0 <- (do result <- matrix_multiply rops u (fc_weights (if training then {| fc_weights := weights p; lastInputs := lastInputs (new_fc v p) ++ [u]; weights_errors := weights_errors (new_fc v p); l2 := l2 (new_fc v p) |} else new_fc v p));
      Ok (if training then {| fc_weights := weights p; lastInputs := lastInputs (new_fc v p) ++ [u]; weights_errors := weights_errors (new_fc v p); l2 := l2 (new_fc v p) |} else new_fc v p, result)); Ok (snd r0)) = Ok z).
    { destruct training; cbn [new_fc fc_weights]; rewrite Ez; reflexivity. }
    cbn [new_fc] in Ez'. cbv zeta. match goal with |- context [do r2 <- (do y <- ?a; _); _] => replace a with (Ok z) end. cbn [obind app].
    destruct (ModelFile_Model.use_bias v).
    - cbn [chain_forward app obind] in *. destruct (layer_forward v p random training Bias [z]) as [t| |]; cbn [obind fst snd] in Eq; try discriminate. injection Eq as ->. cbn [obind layer_forward]. fold a. rewrite Ey. reflexivity.
    - cbn [chain_forward app obind layer_forward] in *. injection Eq as ->. fold a. rewrite Ey. reflexivity. }
  rewrite <- app_assoc. cbn [app]. cbn [app] in Tail. destruct (1 <? r).
  - destruct (App [Flatten] (Full :: (if ModelFile_Model.use_bias v then [Bias] else []) ++ [Activate]) [x] _ _ Eu ltac:(discriminate)) as [H|H]; [|discriminate]. rewrite H. clear H.
    destruct (chain_forward v p random training _ [u]) as [[? ?]| |]; cbn [obind fst snd] in *; try discriminate. exact Tail.
  - cbn [chain_forward] in Eu. injection Eu as ->. exact Tail.
Qed.
Print Assumptions dense_vertex_computes.

(** ** Training *)
(** If also the errors fit on their way back, every end is an output and no vertex feeds two others, then any number of
    batches of any size can be trained, with every loss and with every optimizer that keeps shapes: nothing fails,
    and the parameters keep their shapes. *)
(** Partial, C100: missing are networks that fork, see [forked_network_refuted], and those in [clogged_network_refuted]. *)
Theorem network_trains_partial : forall cs o r rb l d net sh, ModelFile_Spec.joins_something cs -> ModelFile_Model.run cs (ModelFile_Model.new_dsl o r rb l) = Ok d -> ModelFile_Model.build d = Ok net ->
  ModelFile_Model.vertices d <> [] -> outputs_end d -> ends_are_outputs d -> no_sharing d -> well_shaped d net sh -> trainable d net sh ->
  exists fuel0, forall fuel L batches ps, fuel0 <= fuel -> In L losses -> all_fit d ps ->
  Forall (fun batch => keeps_shape (fst batch) /\ snd batch <> [] /\ Forall (fun x => given_fit d (given x) /\ outputs_fit (network d net) sh (truth x)) (snd batch)) batches ->
  exists ps', train d (network d net) L fuel batches ps = Ok ps' /\ all_fit d ps'.
Proof.
  intros cs o r rb l d net sh J Rn Bd NV OE EO NS W TR. destruct (ModelFile_Props.program_ok _ _ _ _ _ _ J Rn) as [D HI].
  destruct (batch_ok _ d net D HI Bd NV OE EO sh W TR NS) as [fuel0 H]. exists fuel0. intros fuel L batches ps Hf HL F Hb. revert ps F.
  induction Hb as [|[change rs] batches (K1 & K2 & K3) Hb IH]; intros ps F; [now exists ps|]. cbn [fst snd] in *. cbn [train]. destruct (H fuel L change ps rs Hf HL K1 F K2 K3) as (ps1 & E1 & F1). rewrite E1. cbn [obind]. now apply IH.
Qed.
Print Assumptions network_trains_partial.

(** ** Forks (refuted) *)
(** When a fully connected layer, or a layer with a bias, leads to a place where the network forks, the first batch
    ends with an exception, whatever it is: the update walks over the network once for each way to the outputs, and finds
    no errors the second time. *)
Theorem forked_network_refuted : forall cs o r rb l d net sh id v, ModelFile_Spec.joins_something cs -> ModelFile_Model.run cs (ModelFile_Model.new_dsl o r rb l) = Ok d -> ModelFile_Model.build d = Ok net ->
  outputs_end d -> ends_are_outputs d -> well_shaped d net sh -> trainable d net sh -> ModelFile_Model.vertex_at d id = Ok v -> needs_errors v -> forks d id ->
  exists fuel0, forall fuel L batches ps, fuel0 <= fuel -> In L losses -> all_fit d ps -> batches <> [] ->
  Forall (fun batch => keeps_shape (fst batch) /\ Forall (fun x => given_fit d (given x) /\ outputs_fit (network d net) sh (truth x)) (snd batch)) batches ->
  train d (network d net) L fuel batches ps = Throw.
Proof.
  intros cs o r rb l d net sh id v J Rn Bd OE EO W TR Ev Nv Fk. destruct (ModelFile_Props.program_ok _ _ _ _ _ _ J Rn) as [D HI].
  assert (NV : ModelFile_Model.vertices d <> []). { apply ModelFile_Proofs.vertex_at_ok in Ev as [R _]. intros Z. rewrite Z in R. cbn in R. lia. }
  destruct (batch_throws _ d net D HI Bd NV OE EO sh W TR id v Ev Nv Fk) as [fuel0 H]. exists fuel0. intros fuel L batches ps Hf HL F Ne Hb. destruct Hb as [|[change rs] batches (K1 & K2) Hb]; [contradiction|]. cbn [fst snd] in *.
  cbn [train]. now rewrite (H fuel L change ps rs Hf HL K1 F K2).
Qed.
Print Assumptions forked_network_refuted.

(** ** Errors that do not get through (refuted) *)
(** When a layer flattens something with several rows and several channels, such as a colour picture or what a convolution with
    several filters gives, the first record ends with an exception: the error cannot be given that shape again. *)
Theorem clogged_network_refuted : forall cs o r rb l d net sh, ModelFile_Spec.joins_something cs -> ModelFile_Model.run cs (ModelFile_Model.new_dsl o r rb l) = Ok d -> ModelFile_Model.build d = Ok net ->
  outputs_end d -> ends_are_outputs d -> well_shaped d net sh ->
  (forall id v, ModelFile_Model.vertex_at d id = Ok v -> clogged v (arriving_shapes d net sh id v) = true \/ sends_back v (ModelFile_Model.acceptsInput v) (arriving_shapes d net sh id v)) ->
  (exists id v, ModelFile_Model.vertex_at d id = Ok v /\ clogged v (arriving_shapes d net sh id v) = true) ->
  exists fuel0, forall fuel L batches ps, fuel0 <= fuel -> In L losses -> all_fit d ps -> batches <> [] ->
  Forall (fun batch => snd batch <> [] /\ Forall (fun x => given_fit d (given x) /\ outputs_fit (network d net) sh (truth x)) (snd batch)) batches ->
  train d (network d net) L fuel batches ps = Throw.
Proof.
  intros cs o r rb l d net sh J Rn Bd OE EO W TR CL. destruct (ModelFile_Props.program_ok _ _ _ _ _ _ J Rn) as [D HI].
  assert (NV : ModelFile_Model.vertices d <> []). { destruct CL as (id & v & Ev & _). apply ModelFile_Proofs.vertex_at_ok in Ev as [R _]. intros Z. rewrite Z in R. cbn in R. lia. }
  destruct (record_blocked _ d net D HI Bd NV OE EO sh W TR CL) as [fuel0 H]. exists fuel0. intros fuel L batches ps Hf HL F Ne Hb. destruct Hb as [|[change rs] batches (K1 & K2) Hb]; [contradiction|]. cbn [fst snd] in *.
  destruct rs as [|x rs]; [contradiction|]. inversion K2; subst. cbn [train]. unfold train_batch. cbn [train_records]. now rewrite (H fuel L ps x Hf HL F).
Qed.
Print Assumptions clogged_network_refuted.

(** ** Shapes that do not fit (refuted) *)
Import ModelFile_Model ModelFile_Spec ModelFile_Props.
Ltac run_program H := match goal with |- exists d, ?x = _ /\ _ => eassert (H : x = Ok _) by (cbv -[IZR to_float Rdiv]; reflexivity) end; eexists; split; [exact H|].
Ltac build_network := eexists; split; [cbv -[IZR to_float Rdiv vertex_record edge_record asString_float asString_id lit optimizerTypeToString lossTypeToString]; reflexivity|].
Lemma chain_fails : forall {A} g (layer : nat -> list A -> outcome A) fuel x y st, conns g = [(1, 2)] -> heads g = [1] -> outputs g = [2] -> 3 <= fuel -> layer 1 [x] = Ok y -> layer 2 [y] = Throw -> snd (predict g layer fuel [x] st) = Throw.
Proof.
  intros A [c h o] layer fuel x y st Ec Eh Eo Hf E1 E2. cbn in Ec, Eh, Eo. subst. destruct fuel as [|[|fuel]]; try lia. cbn. rewrite E1. cbn. unfold forward_from_connection. cbn. rewrite E2. reflexivity.
Qed.
(** The second layer is told to expect nine values, the first gives eight: the network is built, but no prediction is made. *)
Definition misfit : list call := [Add_input full (1, 4, 1)%N (1, 8, 1)%N false relu; Add_layer 1 (1, 9, 1)%N (1, 5, 1)%N full true relu].
Theorem unchecked_shapes_refuted : joins_something misfit /\ forall o r rb l, exists d, run misfit (new_dsl o r rb l) = Ok d /\ exists net, build d = Ok net /\ outputs_end d /\ ends_are_outputs d /\ no_sharing d /\
  forall fuel ps random training given st, 3 <= fuel -> all_fit d ps -> given_fit d given -> snd (predict (network d net) (forward_at d ps random training) fuel given st) = Throw.
Proof.
  split; [solve [no_empty]|]. intros o r rb l. run_program H. build_network. unfold outputs_end, ends_are_outputs, no_sharing. cbn [vertices In].
  split; [|split; [|split]]; try (intros v [<-|[<-|[]]]; cbn; try reflexivity; try discriminate; try lia).
  intros fuel ps random training given st Hf F G. inversion G as [|h x hs xs Hx G' E1 E2]; subst. inversion G'; subst. clear G G'. destruct Hx as (v & Ev & Sx). injection Ev as <-.
  pose proof (F 1 _ eq_refl) as F1. pose proof (F 2 _ eq_refl) as F2.
  pose proof (fun xs ss s H E => vertex_forward_ok _ (ps 1) (random 1) training xs ss s H E F1) as V. destruct (V [x] _ (1, 8, 1) (single _ _ Sx)) as (y & Ey & Y); [reflexivity|].
  apply chain_fails with (y := y); [reflexivity|reflexivity|reflexivity|lia|exact Ey|]. unfold forward_at. cbn [vertex_at vertices vec_at nth_error Nat.sub Nat.eqb obind].
  destruct F2 as (W2 & _). specialize (W2 eq_refl). destruct (shaped_rows _ _ _ _ W2) as (R2 & _). destruct (shaped_rows _ _ _ _ Y) as (_ & C1 & _).
  unfold vertex_forward, layers_of. cbn [node_type input_shape inputShapes hd nat_shape fst snd use_bias use_normalization weighted app chain_forward layer_forward]. cbn -[matrix_multiply].
  change (Pos.to_nat 1) with 1. cbn [app chain_forward]. unfold layer_forward at 1, fc_forward. destruct training; cbn [new_fc fc_weights]; unfold matrix_multiply; rewrite C1, R2; reflexivity.
Qed.
Print Assumptions unchecked_shapes_refuted.

(** ** Examples *)
Ltac each_id id H := first [discriminate H|destruct id as [|id]; [first [discriminate H|injection H as <-]|first [discriminate H|destruct id; discriminate H|each_id id H]]].
Ltac each_vertex H := let id := fresh "id" in let v := fresh "v" in intros id v H; each_id id H.
Ltac each_in := let v := fresh "v" in let I := fresh "I" in intros v I; cbn [vertices In] in I; repeat (destruct I as [<-|I]; [cbn; first [reflexivity|discriminate|lia|intros; discriminate]|]); destruct I.
(** A grey picture and two numbers, with a convolution, normalization and clipping. *)
Definition two_sided : list call :=
  [Add_input_filters convolution2dValid (5, 5, 1)%N 1 3 false relu; Change (Use_bias true) 1; Add_layer 1 (3, 3, 1)%N (1, 4, 1)%N full false sigmoid; Change (Use_bias true) 2;
   Change (Use_normalization true) 2; Change (Use_norm_clipping true) 2; Add_input full (1, 2, 1)%N (1, 3, 1)%N false tanhDefault; Add_concatenated [2; 3]; Add_layer 4 (1, 7, 1)%N (1, 2, 1)%N full true softmax].
Definition two_sided_shapes (id : nat) : Layer_Model.shape := match id with 1 => (3, 3, 1) | 2 => (1, 4, 1) | 3 => (1, 3, 1) | 4 => (1, 7, 1) | _ => (1, 2, 1) end.
Example ex_two_sided : joins_something two_sided /\ exists d, run two_sided (new_dsl adam 5 5 categoricalCrossEntropy) = Ok d /\ exists net, build d = Ok net /\
  vertices d <> [] /\ outputs_end d /\ ends_are_outputs d /\ no_sharing d /\ well_shaped d net two_sided_shapes /\ trainable d net two_sided_shapes.
Proof.
  split; [solve [no_empty]|]. run_program H. build_network. split; [discriminate|]. split; [unfold outputs_end; each_in|]. split; [unfold ends_are_outputs; each_in|]. split; [unfold no_sharing; each_in|].
  split; [each_vertex E; reflexivity|]. each_vertex E; cbn.
  - split; [reflexivity|]. split; [unfold kernel; cbn; lia|left; reflexivity].
  - intros _. constructor; [right; reflexivity|constructor].
  - intros Z. exfalso. change (Pos.to_nat 1) with 1 in Z. lia.
  - split; [reflexivity|]. repeat constructor.
  - intros Z. exfalso. change (Pos.to_nat 1) with 1 in Z. lia.
Qed.
(** One layer that feeds two outputs. *)
Definition fork : list call :=
  [Add_input full (1, 4, 1)%N (1, 8, 1)%N false relu; Add_layer 1 (1, 8, 1)%N (1, 2, 1)%N full true softmax; Add_layer 1 (1, 8, 1)%N (1, 3, 1)%N full true sigmoid].
Definition fork_shapes (id : nat) : Layer_Model.shape := match id with 1 => (1, 8, 1) | 2 => (1, 2, 1) | _ => (1, 3, 1) end.
Example ex_fork : joins_something fork /\ exists d, run fork (new_dsl adam 5 5 mse) = Ok d /\ exists net, build d = Ok net /\
  outputs_end d /\ ends_are_outputs d /\ well_shaped d net fork_shapes /\ trainable d net fork_shapes /\ exists v, vertex_at d 1 = Ok v /\ needs_errors v /\ forks d 1.
Proof.
  split; [solve [no_empty]|]. run_program H. build_network. split; [unfold outputs_end; each_in|]. split; [unfold ends_are_outputs; each_in|].
  split; [each_vertex E; reflexivity|]. split. { each_vertex E; cbn; intros Z; exfalso; change (Pos.to_nat 1) with 1 in Z; lia. }
  eexists. split; [reflexivity|]. split; [left; reflexivity|]. eapply fork_here; [reflexivity|cbn; lia].
Qed.
(** A convolution with two filters, then a fully connected layer. *)
Definition two_filters : list call := [Add_input_filters convolution2dValid (5, 5, 1)%N 2 3 false relu; Add_layer 1 (3, 3, 2)%N (1, 4, 1)%N full true sigmoid].
Definition two_filters_shapes (id : nat) : Layer_Model.shape := match id with 1 => (3, 3, 2) | _ => (1, 4, 1) end.
Example ex_two_filters : joins_something two_filters /\ exists d, run two_filters (new_dsl adam 5 5 mse) = Ok d /\ exists net, build d = Ok net /\
  outputs_end d /\ ends_are_outputs d /\ well_shaped d net two_filters_shapes /\
  (forall id v, vertex_at d id = Ok v -> clogged v (arriving_shapes d net two_filters_shapes id v) = true \/ sends_back v (acceptsInput v) (arriving_shapes d net two_filters_shapes id v)) /\
  exists id v, vertex_at d id = Ok v /\ clogged v (arriving_shapes d net two_filters_shapes id v) = true.
Proof.
  split; [solve [no_empty]|]. run_program H. build_network. split; [unfold outputs_end; each_in|]. split; [unfold ends_are_outputs; each_in|].
  split; [each_vertex E; reflexivity|]. split.
  - each_vertex E; [right|left; reflexivity]. split; [reflexivity|]. split; [unfold kernel; cbn; lia|left; reflexivity].
  - exists 2. eexists. split; reflexivity.
Qed.
(** The plain gradient step keeps shapes. *)
Definition sgd_step (rate : R) : nat -> Net_Model.layer -> T -> T -> outcome T := fun _ _ w gradient => subtract_view rops w (scalar_multiply rops gradient rate).
Example ex_sgd_keeps : forall rate, keeps_shape (sgd_step rate).
Proof.
  intros rate id l w e s Hw He. unfold sgd_step, subtract_view. apply shaped_pointwise; [exact Hw|]. now apply shaped_scale.
Qed.
(** The first layer of [fork] meets the hypotheses of [dense_vertex_computes]. *)
Example ex_dense : exists d v, run fork (new_dsl adam 5 5 mse) = Ok d /\ vertex_at d 1 = Ok v /\ node_type v = full /\ use_normalization v = false /\ activation_type v <> softmax /\ input_shape v = (1, 4, 1) /\ output_shape v = (1, 8, 1).
Proof. eexists. eexists. split; [cbv -[IZR to_float Rdiv]; reflexivity|]. repeat split. discriminate. Qed.
