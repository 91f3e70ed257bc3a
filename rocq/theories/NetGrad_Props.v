(** C104: training moves the parameters of a whole network against the gradient of a cost. *)
From Coquelicot Require Import Coquelicot.
From Coq Require Import List Arith Bool NArith Reals Lia Lra.
From Verif Require Import Outcome Tensor_Model Tensor_Spec Activation_Model Layer_Model Layer_Spec Graph_Model Graph_Spec Graph_Props Net_Model Net_Spec NetGrad_Spec.
From Verif Require Import Algebra_Proofs Layer_Proofs Net_Proofs Net_Vertex Net_Graph Net_Flow Net_Train NetGrad_Layers NetGrad_Flow NetGrad_Proofs NetGrad_Steps.
From Verif Require ModelFile_Model ModelFile_Spec ModelFile_Proofs ModelFile_Props Loss_Model Net_Props MatMul_Proofs.
Import ListNotations.
Local Open Scope R_scope.

(** ** The step follows the gradient *)
(** A batch trained with plain gradient descent moves the weights and biases of the whole network against the gradient of one cost:
    the mean over the records of what the loss stands for, summed over the outputs, plus the penalty for large weights.
    For every direction, how far the parameters went in it is minus the derivative of that cost along the
    direction (its weights times the learning rate, its biases times the bias learning rate). *)
(** Partial, C104: missing are convolutions, normalization and clipping, softmax and approximated sigmoids ([plain]), and forks. *)
Theorem training_follows_gradient_partial : forall cs o r rb l d net sh, ModelFile_Spec.joins_something cs -> ModelFile_Model.run cs (ModelFile_Model.new_dsl o r rb l) = Ok d -> ModelFile_Model.build d = Ok net ->
  ModelFile_Model.vertices d <> [] -> outputs_end d -> ends_are_outputs d -> no_sharing d -> well_shaped d net sh -> trainable d net sh -> (forall id v, ModelFile_Model.vertex_at d id = Ok v -> plain v) ->
  exists fuel0, forall fuel L q inside ps rs rate bias_rate, (fuel0 <= fuel)%nat -> In (L, q, inside) costs -> ready d (network d net) sh fuel inside ps rs ->
  exists ps', train_batch d (network d net) L fuel (gradient_descent rate bias_rate) ps rs = Ok ps' /\
    forall dw db, derivable_pt_lim (fun s => batch_cost d (network d net) fuel q rs (moved ps (fun id i j k => rate * dw id i j k) (fun id i j k => bias_rate * db id i j k) s)) 0 (- way d ps ps' dw db).
Proof.
  intros cs o r rb l d net sh J Rn Bd NV OE EO NS W TR PL. destruct (ModelFile_Props.program_ok _ _ _ _ _ _ J Rn) as [D HI].
  destruct (batch_gradient _ d net D HI Bd NV OE EO NS sh W TR PL) as [fuel0 H]. exists fuel0. intros fuel L q dom ps rs rate bias_rate Hf HL (F & Ne & E & HK & HP).
  destruct (H fuel L q dom ps rs Hf HL F Ne E HK HP) as (gw & gb & G & S0). destruct (S0 rate bias_rate) as (ps' & Ep & Wp). exists ps'. split; [exact Ep|].
  intros dw db. rewrite (way_is d ps ps' rate bias_rate gw gb dw db Wp), Ropp_involutive. apply is_derive_Reals. apply G; [apply moved_zero|now apply moved_moves].
Qed.
Print Assumptions training_follows_gradient_partial.

(** For single parameters: each weight of a fully connected layer goes down by the learning rate times the partial derivative of the
    cost, and each bias by the bias learning rate times it. *)
(** Partial, C104: as above. *)
Theorem each_parameter_descends_partial : forall cs o r rb l d net sh, ModelFile_Spec.joins_something cs -> ModelFile_Model.run cs (ModelFile_Model.new_dsl o r rb l) = Ok d -> ModelFile_Model.build d = Ok net ->
  ModelFile_Model.vertices d <> [] -> outputs_end d -> ends_are_outputs d -> no_sharing d -> well_shaped d net sh -> trainable d net sh -> (forall id v, ModelFile_Model.vertex_at d id = Ok v -> plain v) ->
  exists fuel0, forall fuel L q inside ps rs, (fuel0 <= fuel)%nat -> In (L, q, inside) costs -> ready d (network d net) sh fuel inside ps rs ->
  forall id v, ModelFile_Model.vertex_at d id = Ok v ->
  (ModelFile_Model.node_type v = ModelFile_Model.full -> forall i j k, in_range (weights (ps id)) i j k ->
     exists G, derivable_pt_lim (fun s => batch_cost d (network d net) fuel q rs (moved ps (only id i j k) none s)) 0 G /\
       forall rate bias_rate, exists ps', train_batch d (network d net) L fuel (gradient_descent rate bias_rate) ps rs = Ok ps' /\ entry (weights (ps' id)) i j k = entry (weights (ps id)) i j k - rate * G) /\
  (ModelFile_Model.use_bias v = true -> forall i j k, in_range (biases (ps id)) i j k ->
     exists G, derivable_pt_lim (fun s => batch_cost d (network d net) fuel q rs (moved ps none (only id i j k) s)) 0 G /\
       forall rate bias_rate, exists ps', train_batch d (network d net) L fuel (gradient_descent rate bias_rate) ps rs = Ok ps' /\ entry (biases (ps' id)) i j k = entry (biases (ps id)) i j k - bias_rate * G).
Proof.
  intros cs o r rb l d net sh J Rn Bd NV OE EO NS W TR PL. destruct (ModelFile_Props.program_ok _ _ _ _ _ _ J Rn) as [D HI].
  destruct (batch_gradient _ d net D HI Bd NV OE EO NS sh W TR PL) as [fuel0 H]. exists fuel0. intros fuel L q dom ps rs Hf HL (F & Ne & E & HK & HP) id v Ev.
  destruct (H fuel L q dom ps rs Hf HL F Ne E HK HP) as (gw & gb & G & S0). destruct (F id v Ev) as (F1 & _ & F3). split; intros Et i j k Hi.
  - specialize (F1 Et). destruct (shaped_entry _ _ _ _ F1) as (R1 & R2 & R3 & _). unfold in_range in Hi. rewrite R1, R2, R3 in Hi.
    assert (Eg : gradient_sum d gw gb (only id i j k) none = gw id i j k).
    { unfold gradient_sum. rewrite (over_vertices_one d id v _ Ev).
      - apply is_full_iff in Et. rewrite Et, only_here, over_one by exact Hi. destruct (ModelFile_Model.use_bias v); [rewrite over_null by reflexivity|]; ring.
      - intros id' v' _ N. destruct (is_full v'); [rewrite over_null by (now apply only_elsewhere)|]; (destruct (ModelFile_Model.use_bias v'); [rewrite over_null by reflexivity|]; ring). }
    exists (gw id i j k). split.
    + rewrite <- Eg. apply is_derive_Reals, G; [apply moved_zero|now apply moved_moves].
    + intros rate bias_rate. destruct (S0 rate bias_rate) as (ps' & Ep & Wp). exists ps'. split; [exact Ep|]. pose proof (proj1 (Wp id v Ev) Et) as Q. unfold weights_shape in Q. destruct Hi as (A1 & A2 & A3). now rewrite (entry_is _ _ _ _ _ i j k Q A1 A2 A3).
  - specialize (F3 Et). assert (Hi' : inside (output_shape v) i j k). { destruct (output_shape v) as [[r0 c0] k0]. destruct (shaped_entry _ _ _ _ F3) as (R1 & R2 & R3 & _). unfold in_range in Hi. rewrite R1, R2, R3 in Hi. exact Hi. }
    assert (Eg : gradient_sum d gw gb none (only id i j k) = gb id i j k).
    { unfold gradient_sum. rewrite (over_vertices_one d id v _ Ev).
      - rewrite Et, only_here, over_one by exact Hi'. destruct (is_full v); [rewrite over_null by reflexivity|]; ring.
      - intros id' v' _ N. destruct (ModelFile_Model.use_bias v'); [rewrite over_null with (u := only id i j k id') by (now apply only_elsewhere)|]; (destruct (is_full v'); [rewrite over_null by reflexivity|]; ring). }
    exists (gb id i j k). split.
    + rewrite <- Eg. apply is_derive_Reals, G; [apply moved_zero|now apply moved_moves].
    + intros rate bias_rate. destruct (S0 rate bias_rate) as (ps' & Ep & Wp). exists ps'. split; [exact Ep|]. pose proof (proj2 (Wp id v Ev) Et) as Q. destruct (output_shape v) as [[r0 c0] k0]. destruct Hi' as (A1 & A2 & A3). now rewrite (entry_is _ _ _ _ _ i j k Q A1 A2 A3).
Qed.
Print Assumptions each_parameter_descends_partial.

(** ** Training lowers the cost *)
(** With learning rates that are small enough a batch lowers this cost, unless the gradient is zero; then the weights and biases stay
    as they are, whatever the learning rates. *)
(** Partial, C104: as above. *)
Theorem training_lowers_cost_partial : forall cs o r rb l d net sh, ModelFile_Spec.joins_something cs -> ModelFile_Model.run cs (ModelFile_Model.new_dsl o r rb l) = Ok d -> ModelFile_Model.build d = Ok net ->
  ModelFile_Model.vertices d <> [] -> outputs_end d -> ends_are_outputs d -> no_sharing d -> well_shaped d net sh -> trainable d net sh -> (forall id v, ModelFile_Model.vertex_at d id = Ok v -> plain v) ->
  exists fuel0, forall fuel L q inside ps rs, (fuel0 <= fuel)%nat -> In (L, q, inside) costs -> ready d (network d net) sh fuel inside ps rs ->
  (forall rate bias_rate, exists ps', train_batch d (network d net) L fuel (gradient_descent rate bias_rate) ps rs = Ok ps' /\ stays d ps ps') \/
  (forall rate bias_rate, 0 < rate -> 0 < bias_rate -> exists most, 0 < most /\ forall s, 0 < s < most ->
     exists ps', train_batch d (network d net) L fuel (gradient_descent (s * rate) (s * bias_rate)) ps rs = Ok ps' /\ batch_cost d (network d net) fuel q rs ps' < batch_cost d (network d net) fuel q rs ps).
Proof.
  intros cs o r rb l d net sh J Rn Bd NV OE EO NS W TR PL. destruct (ModelFile_Props.program_ok _ _ _ _ _ _ J Rn) as [D HI].
  destruct (batch_gradient _ d net D HI Bd NV OE EO NS sh W TR PL) as [fuel0 H]. exists fuel0. intros fuel L q dom ps rs Hf HL (F & Ne & E & HK & HP).
  destruct (H fuel L q dom ps rs Hf HL F Ne E HK HP) as (gw & gb & G & S0). destruct (Req_EM_T (gradient_sum d gw gb gw gb) 0) as [Z|Z]; [left|right].
  - intros rate bias_rate. destruct (S0 rate bias_rate) as (ps' & Ep & Wp). exists ps'. split; [exact Ep|]. exact (went_stays d ps ps' rate bias_rate gw gb F Z Wp).
  - intros rate bias_rate Hr Hb.
    set (P := fun s => if Req_EM_T s 0 then ps else match train_batch d (network d net) L fuel (gradient_descent (s * rate) (s * bias_rate)) ps rs with Ok ps' => ps' | _ => ps end).
    assert (P0 : P 0 = ps) by (unfold P; destruct (Req_EM_T 0 0); [reflexivity|contradiction]).
    assert (Ps : forall s, s <> 0 -> train_batch d (network d net) L fuel (gradient_descent (s * rate) (s * bias_rate)) ps rs = Ok (P s) /\ went d ps (P s) (s * rate) (s * bias_rate) gw gb).
    { intros s Hs. destruct (S0 (s * rate) (s * bias_rate)) as (ps' & Ep & Wp). unfold P. destruct (Req_EM_T s 0); [contradiction|]. rewrite Ep. auto. }
    pose proof (G P _ _ P0 (went_moves d ps P rate bias_rate gw gb F P0 (fun s Hs => proj2 (Ps s Hs)))) as Dc.
    assert (Ng : gradient_sum d gw gb (fun id i j k => - rate * gw id i j k) (fun id i j k => - bias_rate * gb id i j k) < 0).
    { eapply Rle_lt_trans; [apply gradient_below; assumption|]. pose proof (gradient_nonneg d gw gb) as N. assert (0 < Rmin rate bias_rate * gradient_sum d gw gb gw gb); [|lra]. apply Rmult_lt_0_compat; [now apply Rmin_glb_lt|lra]. }
    destruct (falls _ _ Dc Ng) as (most & Hm & Fl). exists most. split; [exact Hm|]. intros s Hs. exists (P s). split; [apply Ps; lra|]. specialize (Fl s Hs). cbv beta in Fl. rewrite P0 in Fl. exact Fl.
Qed.
Print Assumptions training_lowers_cost_partial.

(** ** The mean absolute error (refuted) *)
(** A network trained for the mean absolute error, without regularization, gets worse: unless nothing changes, every batch with
    small learning rates raises the squares of the differences between the predictions and the truth.  Its derivative
    has the wrong sign, and is not that of the absolute error. *)
Theorem mae_training_raises_error_refuted : forall cs o r rb l d net sh, ModelFile_Spec.joins_something cs -> ModelFile_Model.run cs (ModelFile_Model.new_dsl o r rb l) = Ok d -> ModelFile_Model.build d = Ok net ->
  ModelFile_Model.vertices d <> [] -> outputs_end d -> ends_are_outputs d -> no_sharing d -> well_shaped d net sh -> trainable d net sh -> (forall id v, ModelFile_Model.vertex_at d id = Ok v -> plain v) -> unregularized d ->
  exists fuel0, forall fuel ps rs, (fuel0 <= fuel)%nat -> ready d (network d net) sh fuel (fun _ => True) ps rs ->
  (forall rate bias_rate, exists ps', train_batch d (network d net) Loss_Model.mae fuel (gradient_descent rate bias_rate) ps rs = Ok ps' /\ stays d ps ps') \/
  (forall rate bias_rate, 0 < rate -> 0 < bias_rate -> exists most, 0 < most /\ forall s, 0 < s < most ->
     exists ps', train_batch d (network d net) Loss_Model.mae fuel (gradient_descent (s * rate) (s * bias_rate)) ps rs = Ok ps' /\
       batch_cost d (network d net) fuel (fun t y => (y - t) ^ 2) rs ps < batch_cost d (network d net) fuel (fun t y => (y - t) ^ 2) rs ps').
Proof.
  intros cs o r rb l d net sh J Rn Bd NV OE EO NS W TR PL U. destruct (training_lowers_cost_partial cs o r rb l d net sh J Rn Bd NV OE EO NS W TR PL) as [fuel0 H]. exists fuel0. intros fuel ps rs Hf Rd.
  destruct (H fuel Loss_Model.mae (fun t y => - (y - t) ^ 2 / 2) (fun _ => True) ps rs Hf ltac:(unfold costs; cbn [In]; tauto) Rd) as [A|A]; [now left|right].
  intros rate bias_rate Hr Hb. destruct (A rate bias_rate Hr Hb) as (most & Hm & Q). exists most. split; [exact Hm|]. intros s Hs. destruct (Q s Hs) as (ps' & Ep & Lt). exists ps'. split; [exact Ep|].
  assert (Sc : forall pa, batch_cost d (network d net) fuel (fun t y => - (y - t) ^ 2 / 2) rs pa = - / 2 * batch_cost d (network d net) fuel (fun t y => (y - t) ^ 2) rs pa).
  { intros pa. rewrite <- (batch_cost_scale d (network d net) fuel (fun t y => (y - t) ^ 2) (- / 2) rs pa U). f_equal. apply FunctionalExtensionality.functional_extensionality. intros t. apply FunctionalExtensionality.functional_extensionality. intros y. field. }
  rewrite !Sc in Lt. lra.
Qed.
Print Assumptions mae_training_raises_error_refuted.

(** ** Examples *)
(** A network with a rectified hidden layer and a sigmoid, all weights and biases 1, and a record without kinks. *)
From Verif Require Import Chars NumText_Model.
Import ModelFile_Model ModelFile_Spec ModelFile_Props Net_Props.
Local Open Scope R_scope.
Definition small : list call := [Add_input full (1, 2, 1)%N (1, 3, 1)%N false relu; Change (Use_bias true) 1; Add_layer 1 (1, 3, 1)%N (1, 1, 1)%N full true sigmoid; Change (Use_bias true) 2].
(** The same without regularization. *)
Definition small_free : list call := small ++ [Change (Use_l2 false) 1; Change (Use_l2 false) 2].
Definition small_shapes (id : nat) : Layer_Model.shape := match id with 1%nat => (1, 3, 1)%nat | _ => (1, 1, 1)%nat end.
Definition ones (id : nat) : params := match id with 1%nat => {| weights := uniform 2 3 1 1%R; kernels := []; biases := uniform 1 3 1 1%R |} | _ => {| weights := uniform 3 1 1 1%R; kernels := []; biases := uniform 1 1 1 1%R |} end.
Definition one_record : example := {| given := [uniform 1 2 1 1%R]; truth := [uniform 1 1 1 0%R]; random := fun _ _ _ _ => 0%R |}.
Lemma uniform_is : forall r c k (x : R), is_tensor (uniform r c k x) r c k (fun _ _ _ => x).
Proof. intros. repeat split. Qed.
(** What arrives at the rectifier is 3. *)
Lemma arrives : forall v p random seen z, input_shape v = (1, 2, 1)%nat -> p = ones 1 -> chain_forward v p random true [Full; Bias] [uniform 1 2 1 1%R] = Ok (seen, z) -> forall i j k, in_range z i j k -> entry z i j k = 3.
Proof.
  intros v p random seen z Ei -> H i j k Hi. cbn [chain_forward layer_forward] in H.
  destruct (MatMul_Proofs.multiply_element rops (uniform 1 2 1 1%R) (uniform 2 3 1 1%R) 1 2 3 1 _ _ (uniform_is 1 2 1 1%R) (uniform_is 2 3 1 1%R)) as (u & Eu & U).
  destruct (MatMul_Proofs.pointwise_element Rplus u (uniform 1 3 1 1%R) 1 3 1 _ _ U (uniform_is 1 3 1 1%R)) as (q & Eq & Q).
  unfold fc_forward, new_fc in H. cbn [fc_weights weights ones] in H. rewrite Eu in H. cbn [obind snd fst] in H. unfold bias_forward, new_bias in H. cbn [bias_values biases ones] in H. unfold add_view in H. cbn [add rops] in H. rewrite Eq in H. cbn [obind fst snd] in H. injection H as _ <-.
  destruct Q as (Q1 & Q2 & Q3 & Q4). unfold in_range in Hi. rewrite Q1, Q2, Q3 in Hi. destruct Hi as (A1 & A2 & A3). unfold entry. rewrite Q4 by assumption. cbn. ring.
Qed.
Definition small_network (program : list call) : Prop := joins_something program /\ exists d, run program (new_dsl sgd 5 5 mse) = Ok d /\ exists net, build d = Ok net /\
  vertices d <> [] /\ outputs_end d /\ ends_are_outputs d /\ no_sharing d /\ well_shaped d net small_shapes /\ trainable d net small_shapes /\ (forall id v, vertex_at d id = Ok v -> plain v) /\
  exists fuel0, forall fuel, (fuel0 <= fuel)%nat -> ready d (network d net) small_shapes fuel (fun y => 0 < y < 1) ones [one_record].
Lemma sigmoid_inside : forall x, 0 < exp x / (exp x + 1) < 1.
Proof. intros x. pose proof (exp_pos x) as P. split; [apply Rdiv_lt_0_compat; lra|]. apply (Rmult_lt_reg_r (exp x + 1)); [lra|]. unfold Rdiv. rewrite Rmult_assoc, Rinv_l by lra. lra. Qed.
Ltac prove_small H HB :=
  split; [solve [no_empty]|]; run_program H; eexists; match goal with |- ?x = _ /\ _ => eassert (HB : x = Ok _) by (cbv -[IZR to_float Rdiv vertex_record edge_record asString_float asString_id lit optimizerTypeToString lossTypeToString]; reflexivity) end; split; [exact HB|];
  split; [discriminate|].
Lemma small_is : forall program d net v1 v2, joins_something program -> run program (new_dsl sgd 5 5 mse) = Ok d -> build d = Ok net -> outputs_end d -> well_shaped d net small_shapes ->
  vertices d = [v1; v2] -> inputReceptors d = [1%nat] -> connections net = [(1, 2)%nat] -> ModelFile_Model.built net = [2; 1]%nat ->
  node_type v1 = full -> node_type v2 = full -> input_shape v1 = (1, 2, 1)%nat -> input_shape v2 = (1, 3, 1)%nat -> output_shape v1 = (1, 3, 1)%nat -> output_shape v2 = (1, 1, 1)%nat -> use_bias v1 = true -> use_bias v2 = true ->
  use_normalization v1 = false -> use_normalization v2 = false -> activation_type v2 = sigmoid -> acceptsInput v2 = false -> producesOutput v1 = false -> producesOutput v2 = true ->
  exists fuel0, forall fuel, (fuel0 <= fuel)%nat -> ready d (network d net) small_shapes fuel (fun y => 0 < y < 1) ones [one_record].
Proof.
  intros program d net v1 v2 J Rn Bd OE W Ev Er Ec Eb T1 T2 I1 I2 O1 O2 B1 B2 N1 N2 A2 P2 Q1 Q2.
  assert (V1 : vertex_at d 1 = Ok v1) by (unfold vertex_at; rewrite Ev; reflexivity). assert (V2 : vertex_at d 2 = Ok v2) by (unfold vertex_at; rewrite Ev; reflexivity).
  assert (VV : forall id v, vertex_at d id = Ok v -> (id = 1%nat /\ v = v1) \/ (id = 2%nat /\ v = v2)).
  { intros id v E. pose proof (proj1 (ModelFile_Proofs.vertex_at_ok d id v) E) as [R _]. rewrite Ev in R. cbn in R. destruct id as [|[|[|id]]]; [lia| | |lia]; rewrite ?V1, ?V2 in E; injection E as <-; auto. }
  assert (F : all_fit d ones). { intros id v E. destruct (VV id v E) as [[-> ->]|[-> ->]]; unfold fit; rewrite ?T1, ?T2, ?I1, ?I2, ?O1, ?O2, ?B1, ?B2; (split; [intros _; eexists; apply uniform_is|split; [discriminate|intros _; eexists; apply uniform_is]]). }
  assert (G : given_fit d (given one_record)). { unfold given_fit. rewrite Er. constructor; [|constructor]. exists v1. split; [exact V1|]. rewrite I1. eexists. apply uniform_is. }
  assert (EO : outputs (network d net) = [2%nat]) by (unfold network; cbn [outputs]; rewrite Eb; cbn [rev app filter]; rewrite V1, V2, Q1, Q2; reflexivity).
  destruct (network_computes_partial program sgd 5 5 mse d net small_shapes J Rn Bd OE W) as [fuel0 H]. exists fuel0. intros fuel Hf. split; [exact F|]. split; [discriminate|]. split; [|split].
  - constructor; [|constructor]. split; [exact G|]. unfold outputs_fit. rewrite EO. constructor; [|constructor]. eexists. apply uniform_is.
  - constructor; [|constructor]. intros id v xs E Ei K. destruct (VV id v E) as [[-> ->]|[-> ->]]; [|destruct K as [K|K]; rewrite A2 in K; discriminate].
    intros before after seen z El Ef i j k Hi.
    assert (X : xs = [uniform 1 2 1 1%R]). { cbn [inputs_of] in Ei. unfold ins, network in Ei. cbn [conns heads] in Ei. unfold to in Ei. cbn [conns] in Ei. rewrite Ec, Er in Ei. cbn in Ei. injection Ei as <-. reflexivity. }
    assert (Ls : layers_of v1 = [Full; Bias; Activate]) by (unfold layers_of; rewrite T1, I1, B1, N1; reflexivity).
    rewrite Ls in El. destruct before as [|a [|b [|c [|e before]]]]; cbn in El; try discriminate.
    injection El as <- <- _. rewrite X in Ef. rewrite (arrives v1 (ones 1) _ seen z I1 eq_refl Ef i j k Hi). lra.
  - constructor; [|constructor]. intros ys y Ey Iy i j k Hi. destruct (H fuel ones (random one_record) true (given one_record) fresh Hf F G ltac:(intros c _; reflexivity)) as (st' & value & Ep & _ & H2 & H3). rewrite Ep in Ey. cbn [snd] in Ey. assert (Ey1 : ys = map value (outputs (network d net))) by congruence. rewrite Ey1, EO in Iy. clear Ey Ey1. destruct Iy as [<-|[]].
    specialize (H2 2%nat v2 V2 P2). rewrite Ec in H2. unfold arriving in H2. cbn [filter map fst snd Nat.eqb] in H2. pose proof (H3 1%nat v1 V1) as S1. cbn [small_shapes] in S1.
    destruct (dense_vertex_computes v2 (ones 2) (random one_record 2%nat) true (value 1%nat) 1 3 1 (entry (value 1%nat)) (fun _ _ _ => 1) (fun _ _ _ => 1) T2 N2 ltac:(congruence) I2 O2 ltac:(lia) ltac:(lia) (shaped_entry _ _ _ _ S1) (uniform_is 3 1 1 1) (fun _ => uniform_is 1 1 1 1)) as (y & Ey & Y).
    rewrite Ey in H2. assert (Hy : y = value 2%nat) by congruence. rewrite <- Hy in *. clear Hy H2. destruct Y as (Y1 & Y2 & Y3 & Y4). unfold in_range in Hi. rewrite Y1, Y2, Y3 in Hi. destruct Hi as (C1 & C2 & C3). unfold entry. rewrite Y4 by assumption. rewrite A2. cbn [formula]. apply sigmoid_inside.
Qed.
Example ex_small : small_network small.
Proof.
  unfold small_network. prove_small H HB. refine (_ : _ /\ _).
  assert (OE : outputs_end _) by (match type of H with run _ _ = Ok ?d => instantiate (1 := d) end; unfold outputs_end; each_in). split; [exact OE|].
  split; [unfold ends_are_outputs; each_in|]. split; [unfold no_sharing; each_in|].
  assert (W : well_shaped _ _ small_shapes) by (match type of H with run _ _ = Ok ?d => match type of HB with _ = Ok ?net => instantiate (2 := d); instantiate (1 := net) end end; each_vertex E; reflexivity). split; [exact W|].
  split. { each_vertex E; cbn; intros Z; exfalso; change (Pos.to_nat 1) with 1%nat in Z; lia. }
  split. { each_vertex E; unfold plain; cbn; repeat split; discriminate. }
  eapply (small_is small _ _ _ _ ltac:(no_empty) H HB OE W); reflexivity.
Qed.
Example ex_small_free : small_network small_free /\ forall d, run small_free (new_dsl sgd 5 5 mse) = Ok d -> unregularized d.
Proof.
  split.
  - unfold small_network. prove_small H HB.
    assert (OE : outputs_end _) by (match type of H with run _ _ = Ok ?d => instantiate (1 := d) end; unfold outputs_end; each_in). split; [exact OE|].
    split; [unfold ends_are_outputs; each_in|]. split; [unfold no_sharing; each_in|].
    assert (W : well_shaped _ _ small_shapes) by (match type of H with run _ _ = Ok ?d => match type of HB with _ = Ok ?net => instantiate (2 := d); instantiate (1 := net) end end; each_vertex E; reflexivity). split; [exact W|].
    split. { each_vertex E; cbn; intros Z; exfalso; change (Pos.to_nat 1) with 1%nat in Z; lia. }
    split. { each_vertex E; unfold plain; cbn; repeat split; discriminate. }
    eapply (small_is small_free _ _ _ _ ltac:(no_empty) H HB OE W); reflexivity.
  - intros d E. match type of E with ?x = _ => eassert (H : x = Ok _) by (cbv -[IZR to_float Rdiv]; reflexivity) end. rewrite H in E. injection E as <-. each_vertex E; reflexivity.
Qed.
(** Then it is also ready for the losses that ask nothing of the prediction. *)
Lemma ready_any : forall d g sh fuel inside ps rs, ready d g sh fuel inside ps rs -> ready d g sh fuel (fun _ => True) ps rs.
Proof. intros d g sh fuel inside ps rs (H1 & H2 & H3 & H4 & H5). repeat (split; [assumption|]). eapply Forall_impl; [|exact H5]. intros r _ ys y _ _ i j k _. exact I. Qed.
