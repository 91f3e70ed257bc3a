(** C109: a prediction in [float] is near the exact one. *)
From Coq Require Import List Arith Bool NArith ZArith Reals Lia Lra.
From Flocq Require Import Core IEEE754.BinarySingleNaN IEEE754.Binary IEEE754.Bits.
From Verif Require Import Outcome Tensor_Model Tensor_Spec F32_Model Activation_Model Layer_Model Graph_Model Graph_Spec Net_Model Net_Spec FloatNet_Model FloatNet_Spec FloatNet_Props FloatRun_Spec FloatLayer_Proofs FloatRun_Proofs FloatFaith_Proofs.
From Verif Require FloatNorm_Proofs Chars NumText_Model ModelFile_Model ModelFile_Spec ModelFile_Proofs ModelFile_Props FloatAct_Proofs Graph_Props Net_Graph Net_Props FloatExp_Proofs FloatNet_Proofs.
Import ListNotations.
Local Open Scope R_scope.

(** A network made with the DSL: if its parameters and what it is given are numbers, and [bs] are
    bounds that follow from layer to layer, then it predicts, no number overflows, and each output is as near the exact prediction with the same parameters
    as the bounds say; for an output with softmax, the scores it is made of are.  Normalization magnifies small tensors: the bounds say how much by the size of an element
    that the exact tensor it gets has. *)
Theorem float_prediction : forall cs o r rb l d net sh, ModelFile_Spec.joins_something cs -> ModelFile_Model.run cs (ModelFile_Model.new_dsl o r rb l) = Ok d -> ModelFile_Model.build d = Ok net ->
  outputs_end d -> well_shaped d net sh ->
  exists fuel0, forall fuel lib ps random given e least most bs, (fuel0 <= fuel)%nat ->
  (forall id v, ModelFile_Model.vertex_at d id = Ok v -> faithful_vertex lib e v (sh id)) ->
  float_fit d ps -> float_given d most given -> bounds d net sh ps e least most bs -> normalizes_something d net ps random given least ->
  exists value float_value,
    snd (predict (network d net) (forward_at d (fun id => exact_params (ps id)) random false) fuel (map exact given) fresh) = Ok (map value (outputs (network d net))) /\
    float_predict lib d (network d net) ps fuel given = Ok (map float_value (outputs (network d net))) /\
    forall id, In id (outputs (network d net)) -> shaped (value id) (sh id) /\ exists v, ModelFile_Model.vertex_at d id = Ok v /\ near_output lib v (bs id) (value id) (float_value id).
Proof.
  intros cs o r rb l d net sh J Rn Bd OE W. destruct (ModelFile_Props.program_ok _ _ _ _ _ _ J Rn) as [D HI].
  destruct (Graph_Props.prediction_computes_the_values_partial (network d net) (Net_Graph.network_well_formed _ d net D HI Bd) (Net_Graph.network_outputs _ d net D HI Bd OE)) as [fuel0 H]. exists fuel0. intros fuel lib ps random given e least most bs Hf Fa Fi Gi Bo Ac0.
  destruct (network_near _ d net D HI Bd OE sh W lib ps random e least most bs given Fa Fi Gi Bo Ac0) as (value & fvalue & V1 & V2 & L & N). exists value, fvalue.
  split; [|split].
  - destruct (H T _ fuel (map exact given) value fresh Hf ltac:(now rewrite map_length) V1) as (st & calls & E & _); [intros c _; reflexivity|]. now rewrite E.
  - unfold float_predict. destruct (H FT _ fuel given fvalue fresh Hf L V2) as (st & calls & E & _); [intros c _; reflexivity|]. now rewrite E.
  - intros id Hid. apply (Net_Graph.output_iff _ d net D HI Bd) in Hid as (v & Ev & _). destruct (N id v Ev) as [N1 N2]. split; [exact N1|]. now exists v.
Qed.
Print Assumptions float_prediction.

(** A choice that is clear in the exact prediction is made in [float] too. *)
Theorem clear_choice : forall o t y i j l i' j' l' a b, near o t y -> (i < rows t)%nat -> (j < cols t)%nat -> (l < chans t)%nat -> (i' < rows t)%nat -> (j' < cols t)%nat -> (l' < chans t)%nat ->
  get t i j l = Ok a -> get t i' j' l' = Ok b -> a + 2 * error o < b ->
  exists x z, get y i j l = Ok x /\ get y i' j' l' = Ok z /\ flt x z = true.
Proof.
  intros o t y i j l i' j' l' a b (_ & _ & _ & H) Hi Hj Hl Hi' Hj' Hl' Ea Eb L. destruct (H i j l Hi Hj Hl) as (a' & x & Ea' & Ex & Nx & _ & B1). destruct (H i' j' l' Hi' Hj' Hl') as (b' & z & Eb' & Ez & Nz & _ & B2). assert (a' = a) as -> by congruence. assert (b' = b) as -> by congruence.
  exists x, z. split; [exact Ex|]. split; [exact Ez|]. apply (F32_Proofs.flt_true x z Nx Nz). change (number x < number z). apply Rabs_le_inv in B1. apply Rabs_le_inv in B2. lra.
Qed.
Print Assumptions clear_choice.

(** The activation functions that are faithful: linear and ReLU without any error, the others to some units in the last place; sigmoid and the approximation of tanh
    (which is made of sigmoid, also where doubling its argument overflows) if the exponential function of the C library is accurate, and tanh as accurately as that of the C library. *)
Theorem faithful_activations : forall lib,
  faithful lib ModelFile_Model.linear (fun _ => 0) /\ faithful lib ModelFile_Model.relu (fun _ => 0) /\
  faithful lib ModelFile_Model.leaky (fun x => unit_error * x + tiny) /\ faithful lib ModelFile_Model.sigmoidApprox (fun _ => 4 * unit_error) /\
  (forall eps, 0 <= eps <= 1 -> accurate_exp (expf lib) eps -> faithful lib ModelFile_Model.sigmoid (fun _ => eps + 3 * unit_error)) /\
  (forall eps, 0 <= eps <= 1 -> accurate_exp (expf lib) eps -> exp_limits (expf lib) -> faithful lib ModelFile_Model.tanhApprox (fun _ => 2 * eps + 10 * unit_error)) /\
  (forall eps, accurate_tanh (tanhf lib) eps -> faithful lib ModelFile_Model.tanhDefault (fun _ => eps)).
Proof.
  intros lib. split; [apply faithful_linear|]. split; [apply faithful_relu|]. split; [apply faithful_leaky|]. split; [apply faithful_sigmoid_approx|]. split; [intros eps H A; now apply faithful_sigmoid|].
  split; [intros eps H A L; now apply faithful_tanh_approx|]. intros eps H. now apply faithful_tanh.
Qed.
Print Assumptions faithful_activations.

(** ** Examples *)
(** The correctly rounded exponential function is accurate. *)
Example ex_accurate : accurate_exp FloatExp_Proofs.rounded_exp unit_error /\ exp_limits FloatExp_Proofs.rounded_exp.
Proof. split; [exact rounded_exp_accurate|exact rounded_exp_limits]. Qed.
(** A network without normalization. *)
Lemma no_normalization : forall d b ps random given least, (forall id v, ModelFile_Model.vertex_at d id = Ok v -> ~ In Normalize (layers_of v)) -> normalizes_something d b ps random given least.
Proof. intros d b ps random given least H value _ id v xs before after seen t Ev _ El _. exfalso. apply (H id v Ev). rewrite El. apply in_or_app. right. now left. Qed.
(** Two neurons with ReLU and biases, and one without activation behind them, for inputs up to 10: the prediction is within five thousandths of the exact one. *)
Import ModelFile_Model ModelFile_Spec ModelFile_Props Net_Props.
Local Open Scope R_scope.
Definition small_network : list call := [Add_input full (1, 2, 1)%N (1, 2, 1)%N false relu; Change (Use_bias true) 1; Add_layer 1 (1, 2, 1)%N (1, 1, 1)%N full true linear].
Definition small_shapes (id : nat) : Layer_Model.shape := match id with 1%nat => (1, 2, 1)%nat | _ => (1, 1, 1)%nat end.
Definition matrix (l : list (list F)) : FT := {| rows := length l; cols := length (hd [] l); chans := 1; get := fun r c k => match nth_error l r with Some l => match nth_error l c with Some x => Ok x | None => UB end | None => UB end |}.
Definition small_params (id : nat) : float_params :=
  match id with
  | 1%nat => {| float_weights := matrix [[of_Z 1; of_Z (-1)]; [of_Z 2; of_Z 1]]; float_kernels := []; float_biases := row [of_Z 1; of_Z 0]; float_rate := float0 |}
  | _ => {| float_weights := column [of_Z 1; of_Z 1]; float_kernels := []; float_biases := row []; float_rate := float0 |}
  end.
Definition no_error (a : activation) (x : R) : R := 0.
Definition small_bounds (id : nat) : bound := match id with 1%nat => {| largest := 31; error := 2 / 1000 |} | _ => {| largest := 62; error := 5 / 1000 |} end.
Lemma small_in_bounds : forall x, x <= 1024 -> in_bounds x.
Proof. intros x Hx. unfold in_bounds. apply Rle_lt_trans with (2 ^ 10); [replace (2 ^ 10) with 1024 by ring; exact Hx|apply Rlt_pow; [lra|lia]]. Qed.
Lemma small_sum : forall m A W X E i, 0 <= A <= W -> 0 <= largest i + error i -> (m <= 4)%nat -> W * (largest i + error i) <= 400 -> W * largest i <= X -> 0 <= largest i -> 0 <= error i -> W * error i + / 2000 <= E -> sum_bounds m A i {| largest := X; error := E |}.
Proof.
  intros m A W X E i HA Hi Hm Hs HX H0 H1 HE. pose proof unit_value as U. pose proof tiny_small as Y. pose proof FloatNet_Proofs.tiny_pos as Y0. assert (M : INR m <= 4) by (replace 4 with (INR 4) by (cbn; lra); now apply le_INR). pose proof (pos_INR m) as M0. unfold sum_bounds. cbv zeta. cbn [largest error].
  assert (S0 : 0 <= A * (largest i + error i) <= 400) by (split; [apply Rmult_le_pos; lra|]; eapply Rle_trans; [|exact Hs]; apply Rmult_le_compat_r; lra).
  assert (SE : 0 <= sum_error m (A * (largest i + error i)) <= / 2000). { split; [apply FloatNet_Proofs.sum_error_pos; lra|]. eapply Rle_trans; [apply float_error_linear; [rewrite U; lra|lra]|]. set (s := A * (largest i + error i)) in *. clearbody s. assert (INR m * tiny <= 4 * tiny) by (apply Rmult_le_compat_r; lra). assert (2 * (INR m + 1) * unit_error * s <= 10 * unit_error * 400). { apply Rmult_le_compat; [apply Rmult_le_pos; lra|lra| |lra]. apply Rmult_le_compat_r; lra. } lra. }
  assert (A * largest i <= W * largest i) by (apply Rmult_le_compat_r; lra). assert (A * error i <= W * error i) by (apply Rmult_le_compat_r; lra). split; [apply small_in_bounds; lra|]. split; lra.
Qed.
Example ex_float_network : joins_something small_network /\ exists d, run small_network (new_dsl adam 5 5 mse) = Ok d /\ exists net, build d = Ok net /\
  outputs_end d /\ well_shaped d net small_shapes /\ outputs (network d net) = [2%nat] /\
  (forall lib id v, vertex_at d id = Ok v -> faithful_vertex lib no_error v (small_shapes id)) /\
  float_fit d small_params /\ float_given d (fun _ => 10) [row [of_Z 3; of_Z (-7)]] /\ bounds d net small_shapes small_params no_error (fun _ => 0) (fun _ => 10) small_bounds /\
  forall random, normalizes_something d net small_params random [row [of_Z 3; of_Z (-7)]] (fun _ => 0).
Proof.
  split; [solve [no_empty]|]. run_program H. build_network. split; [unfold outputs_end; each_in|]. split; [each_vertex E; reflexivity|].
  split; [reflexivity|].
  split; [intros lib; each_vertex E; intros _; cbn; [apply faithful_relu|apply faithful_linear]|].
  pose proof unit_value as U. pose proof tiny_small as Y. pose proof FloatNet_Proofs.tiny_pos as Y0.
  assert (B : forall z, (Z.abs z <= 10)%Z -> Rabs (number (of_Z z)) = IZR (Z.abs z)) by (intros z Hz; rewrite (proj2 (whole z ltac:(lia))); now rewrite abs_IZR).
  split; [|split; [|split; [|intros random; apply no_normalization; each_vertex E; intros I; cbn in I; repeat (destruct I as [I|I]; [discriminate I|]); exact I]]].
  - each_vertex E; (split; [intros _|split; [discriminate|split; [discriminate|intros Hb; try discriminate Hb]]]).
    + change (numbers_of (matrix [[of_Z 1; of_Z (-1)]; [of_Z 2; of_Z 1]]) (2, 2, 1)%nat). exists (fun i j _ => match i, j with 0%nat, 0%nat => number (of_Z 1) | 0%nat, _ => number (of_Z (-1)) | _, 0%nat => number (of_Z 2) | _, _ => number (of_Z 1) end). unfold numbers. split; [reflexivity|]. split; [reflexivity|]. split; [reflexivity|]. intros i j l Hi Hj Hl.
      destruct i as [|[|i]]; [| |lia]; (destruct j as [|[|j]]; [| |lia]); (eexists; split; [reflexivity|]; split; [apply whole; lia|reflexivity]).
    + change (numbers_of (row [of_Z 1; of_Z 0]) (1, 2, 1)%nat). exists (fun _ j _ => match j with 0%nat => number (of_Z 1) | _ => number (of_Z 0) end). unfold numbers. split; [reflexivity|]. split; [reflexivity|]. split; [reflexivity|]. intros i j l Hi Hj Hl.
      destruct j as [|[|j]]; [| |lia]; (eexists; split; [reflexivity|]; split; [apply whole; lia|reflexivity]).
    + change (numbers_of (column [of_Z 1; of_Z 1]) (2, 1, 1)%nat). exists (fun _ _ _ => number (of_Z 1)). unfold numbers. split; [reflexivity|]. split; [reflexivity|]. split; [reflexivity|]. intros i j l Hi Hj Hl.
      destruct i as [|[|i]]; [| |lia]; (eexists; split; [reflexivity|]; split; [apply whole; lia|reflexivity]).
  - constructor; [|constructor]. eexists. split; [reflexivity|]. change (numbers_up_to 10 (row [of_Z 3; of_Z (-7)]) (1, 2, 1)%nat). exists (fun _ j _ => match j with 0%nat => number (of_Z 3) | _ => number (of_Z (-7)) end). split.
    + unfold numbers. split; [reflexivity|]. split; [reflexivity|]. split; [reflexivity|]. intros i j l Hi Hj Hl. destruct j as [|[|j]]; [| |lia]; (eexists; split; [reflexivity|]; split; [apply whole; lia|reflexivity]).
    + intros i j l Hi Hj Hl. destruct j as [|[|j]]; [| |lia]; rewrite B by lia; cbn [Z.abs]; lra.
  - each_vertex E.
    + exists {| largest := 30; error := / 1000 |}. split; [|exists {| largest := 31; error := 2 / 1000 |}; split; [|exists {| largest := 31; error := 2 / 1000 |}; split; [|reflexivity]]]; (constructor; [|constructor]).
      * intros j Hj. change (j < 2)%nat in Hj. change (volume _) with 2%nat. apply (small_sum 2 _ 3 30 (/ 1000)); [|cbn [largest error]; try lra; try lia..]. unfold all_weights, at_place. destruct j as [|[|j]]; [| |lia]; cbn [Sum rops zero add small_params float_weights matrix get nth_error]; rewrite !B by lia; cbn [Z.abs]; lra.
      * intros a j l Ha Hj Hl. change (a < 1)%nat in Ha. change (j < 2)%nat in Hj. assert (Q : 0 <= Rabs (at_place (float_biases (small_params 1)) a j l) <= 1). { split; [apply Rabs_pos|]. unfold at_place. destruct j as [|[|j]]; [| |lia]; cbn [small_params float_biases row get nth_error]; rewrite B by lia; cbn [Z.abs]; lra. }
        unfold bias_bounds. cbn [largest error]. set (b := Rabs _) in *. clearbody b. split; [apply small_in_bounds; rewrite U; lra|]. rewrite U. lra.
      * split; cbn [largest error]; unfold no_error; [rewrite Rmax_right; lra|lra].
    + exists {| largest := 62; error := 5 / 1000 |}. split; [|exists {| largest := 62; error := 5 / 1000 |}; split; [|reflexivity]]; (constructor; [|constructor]).
      * intros j Hj. change (j < 1)%nat in Hj. change (volume _) with 2%nat. change (small_bounds (fst (1%nat, 2%nat))) with {| largest := 31; error := 2 / 1000 |}. apply (small_sum 2 _ 2 62 (5 / 1000)); [|cbn [largest error]; try lra; try lia..]. unfold all_weights, at_place. cbn [Sum rops zero add small_params float_weights column get nth_error]; rewrite !B by lia; cbn [Z.abs]; lra.
      * split; cbn [largest error]; unfold no_error; [rewrite Rmax_right; lra|lra].
Qed.

(** Two numbers are normalized, and a neuron adds them: within a thousandth of the exact sum. *)
Definition normal_network : list call := [Add_input normalize (1, 2, 1)%N (1, 2, 1)%N false linear; Add_layer 1 (1, 2, 1)%N (1, 1, 1)%N full true linear].
Definition normal_bounds (id : nat) : bound := match id with 1%nat => {| largest := 6; error := / 100000 |} | _ => {| largest := 12; error := / 1000 |} end.
Example ex_float_normalization : joins_something normal_network /\ exists d, run normal_network (new_dsl adam 5 5 mse) = Ok d /\ exists net, build d = Ok net /\
  outputs_end d /\ well_shaped d net small_shapes /\ outputs (network d net) = [2%nat] /\
  (forall lib id v, vertex_at d id = Ok v -> faithful_vertex lib no_error v (small_shapes id)) /\
  float_fit d small_params /\ float_given d (fun _ => 10) [row [of_Z 3; of_Z (-7)]] /\ bounds d net small_shapes small_params no_error (fun _ => 7) (fun _ => 10) normal_bounds /\
  forall random, normalizes_something d net small_params random [row [of_Z 3; of_Z (-7)]] (fun _ => 7).
Proof.
  split; [solve [no_empty]|]. run_program H. build_network. split; [unfold outputs_end; each_in|]. split; [each_vertex E; reflexivity|].
  split; [reflexivity|].
  split; [intros lib; each_vertex E; intros W; try discriminate W; apply faithful_linear|].
  pose proof unit_value as U. pose proof tiny_small as Y. pose proof FloatNet_Proofs.tiny_pos as Y0.
  assert (B : forall z, (Z.abs z <= 10)%Z -> Rabs (number (of_Z z)) = IZR (Z.abs z)) by (intros z Hz; rewrite (proj2 (whole z ltac:(lia))); now rewrite abs_IZR).
  split; [|split; [|split]].
  - each_vertex E; (split; [intros Hf; try discriminate Hf|split; [discriminate|split; [discriminate|intros Hb; discriminate Hb]]]).
    change (numbers_of (column [of_Z 1; of_Z 1]) (2, 1, 1)%nat). exists (fun _ _ _ => number (of_Z 1)). unfold numbers. split; [reflexivity|]. split; [reflexivity|]. split; [reflexivity|]. intros i j l Hi Hj Hl.
    destruct i as [|[|i]]; [| |lia]; (eexists; split; [reflexivity|]; split; [apply whole; lia|reflexivity]).
  - constructor; [|constructor]. eexists. split; [reflexivity|]. change (numbers_up_to 10 (row [of_Z 3; of_Z (-7)]) (1, 2, 1)%nat). exists (fun _ j _ => match j with 0%nat => number (of_Z 3) | _ => number (of_Z (-7)) end). split.
    + unfold numbers. split; [reflexivity|]. split; [reflexivity|]. split; [reflexivity|]. intros i j l Hi Hj Hl. destruct j as [|[|j]]; [| |lia]; (eexists; split; [reflexivity|]; split; [apply whole; lia|reflexivity]).
    + intros i j l Hi Hj Hl. destruct j as [|[|j]]; [| |lia]; rewrite B by lia; cbn [Z.abs]; lra.
  - each_vertex E.
    + exists {| largest := 6; error := / 100000 |}. split; [|reflexivity]. constructor; [|constructor]. cbn [layer_bounds]. change (volume (small_shapes 1)) with 2%nat. unfold normalization_bounds. cbn [largest error]. cbv zeta. replace (INR 2) with 2 by (cbn; lra). replace (8 * 2) with (4 * 4) by ring. rewrite sqrt_square by lra. rewrite U, FloatNorm_Proofs.double_value.
      split; [lra|]. split; [apply Rle_trans with (2 ^ 4); [lra|apply Rle_pow; [lra|lia]]|]. split; [apply Rle_trans with 1; [rewrite <- Rinv_1; apply Rinv_le_contravar; [lra|apply pow_R1_Rle; lra]|lra]|]. split; [lra|]. split; [|lra].
      assert (sqrt 2 <= 3 / 2) by (rewrite <- (sqrt_square (3 / 2)) by lra; apply sqrt_le_1; lra). lra.
    + exists {| largest := 12; error := / 1000 |}. split; [|exists {| largest := 12; error := / 1000 |}; split; [|reflexivity]]; (constructor; [|constructor]).
      * intros j Hj. change (j < 1)%nat in Hj. change (volume _) with 2%nat. change (normal_bounds (fst (1%nat, 2%nat))) with {| largest := 6; error := / 100000 |}. apply (small_sum 2 _ 2 12 (/ 1000)); [|cbn [largest error]; try lra; try lia..]. unfold all_weights, at_place. cbn [Sum rops zero add small_params float_weights column get nth_error]; rewrite !B by lia; cbn [Z.abs]; lra.
      * split; cbn [largest error]; unfold no_error; [rewrite Rmax_right; lra|lra].
  - intros random value _. intros id v xs before after seen t Ev Ar El Ec. revert Ar El Ec. revert id v Ev. each_vertex E.
    + intros (i & x & Ei & Ex & ->) El Ec. destruct i as [|i]; [|destruct i; discriminate Ei]. injection Ex as <-. destruct before as [|l before]; [|exfalso; injection El as _ El; destruct before; discriminate El]. injection Ec as <- <-. exists 0%nat, 1%nat, 0%nat, (number (of_Z (-7))). repeat split; try (cbn; lia). rewrite B by lia. cbn [Z.abs]. lra.
    + intros _ El. exfalso. assert (I : In Normalize (before ++ Normalize :: after)) by (apply in_or_app; right; now left). rewrite <- El in I. cbn in I. repeat (destruct I as [I|I]; [discriminate I|]). exact I.
Qed.

(** A filter over a picture of 3 x 3 points, dropout, and a neuron behind it; the rate of dropout is one half. *)
Definition filters_network : list call := [Add_input_filters convolution2dValid (3, 3, 1)%N 1 2 false relu; Add_layer 1 (2, 2, 1)%N (1, 4, 1)%N dropout false linear; Change (Dropout_rate (1 / 2)) 2; Add_layer 2 (1, 4, 1)%N (1, 1, 1)%N full true linear].
Definition filters_shapes (id : nat) : Layer_Model.shape := match id with 1%nat => (2, 2, 1)%nat | 2%nat => (1, 4, 1)%nat | _ => (1, 1, 1)%nat end.
Definition picture : FT := matrix [[of_Z 3; of_Z (-7); of_Z 0]; [of_Z 1; of_Z 10; of_Z 2]; [of_Z 4; of_Z 4; of_Z (-4)]].
Definition filters_params (id : nat) : float_params :=
  match id with
  | 1%nat => {| float_weights := row []; float_kernels := [matrix [[of_Z 1; of_Z (-1)]; [of_Z 2; of_Z 0]]]; float_biases := row []; float_rate := float0 |}
  | 2%nat => {| float_weights := row []; float_kernels := []; float_biases := row []; float_rate := float_half |}
  | _ => {| float_weights := column [of_Z 1; of_Z 1; of_Z (-1); of_Z 1]; float_kernels := []; float_biases := row []; float_rate := float0 |}
  end.
Definition filters_bounds (id : nat) : bound := match id with 1%nat => {| largest := 40; error := / 1000 |} | 2%nat => {| largest := 80; error := 3 / 1000 |} | _ => {| largest := 320; error := 14 / 1000 |} end.
Example ex_float_filters : joins_something filters_network /\ exists d, run filters_network (new_dsl adam 5 5 mse) = Ok d /\ exists net, build d = Ok net /\
  outputs_end d /\ well_shaped d net filters_shapes /\ outputs (network d net) = [3%nat] /\
  (forall lib id v, vertex_at d id = Ok v -> faithful_vertex lib no_error v (filters_shapes id)) /\
  float_fit d filters_params /\ float_given d (fun _ => 10) [picture] /\ bounds d net filters_shapes filters_params no_error (fun _ => 0) (fun _ => 10) filters_bounds /\
  forall random, normalizes_something d net filters_params random [picture] (fun _ => 0).
Proof.
  split; [solve [no_empty]|]. run_program H.
  eexists. split; [cbv -[IZR NumText_Model.to_float Rdiv vertex_record edge_record NumText_Model.asString_float asString_id Chars.lit optimizerTypeToString lossTypeToString Rlt_dec]; destruct (Rlt_dec (1 / 2) 0); [exfalso; lra|]; destruct (Rlt_dec 1 (1 / 2)); [exfalso; lra|]; reflexivity|].
  split; [unfold outputs_end; each_in|]. split; [each_vertex E; reflexivity|].
  split; [reflexivity|].
  split; [intros lib; each_vertex E; intros _; cbn; [apply faithful_relu|apply faithful_linear|apply faithful_linear]|].
  pose proof unit_value as U. pose proof tiny_small as Y. pose proof FloatNet_Proofs.tiny_pos as Y0.
  assert (B : forall z, (Z.abs z <= 10)%Z -> Rabs (number (of_Z z)) = IZR (Z.abs z)) by (intros z Hz; rewrite (proj2 (whole z ltac:(lia))); now rewrite abs_IZR).
  split; [|split; [|split; [|intros random; apply no_normalization; each_vertex E; intros I; cbn in I; repeat (destruct I as [I|I]; [discriminate I|]); exact I]]].
  - each_vertex E; (split; [|split; [|split; [|discriminate]]]); try discriminate; intros _.
    + split; [reflexivity|]. constructor; [|constructor]. change (numbers_of (matrix [[of_Z 1; of_Z (-1)]; [of_Z 2; of_Z 0]]) (2, 2, 1)%nat). exists (fun i j _ => match i, j with 0%nat, 0%nat => number (of_Z 1) | 0%nat, _ => number (of_Z (-1)) | _, 0%nat => number (of_Z 2) | _, _ => number (of_Z 0) end). unfold numbers. split; [reflexivity|]. split; [reflexivity|]. split; [reflexivity|]. intros i j l Hi Hj Hl.
      destruct i as [|[|i]]; [| |lia]; (destruct j as [|[|j]]; [| |lia]); (eexists; split; [reflexivity|]; split; [apply whole; lia|reflexivity]).
    + cbn [filters_params float_rate dropout_rate]. destruct FloatAct_Proofs.half_is as [Nh Vh]. split; [exact Nh|]. split; [rewrite Vh; lra|lra].
    + change (numbers_of (column [of_Z 1; of_Z 1; of_Z (-1); of_Z 1]) (4, 1, 1)%nat). exists (fun i _ _ => match i with 2%nat => number (of_Z (-1)) | _ => number (of_Z 1) end). unfold numbers. split; [reflexivity|]. split; [reflexivity|]. split; [reflexivity|]. intros i j l Hi Hj Hl.
      destruct i as [|[|[|[|i]]]]; try lia; (eexists; split; [reflexivity|]; split; [apply whole; lia|reflexivity]).
  - constructor; [|constructor]. eexists. split; [reflexivity|]. change (numbers_up_to 10 picture (3, 3, 1)%nat).
    exists (fun i j _ => match i, j with 0%nat, 0%nat => number (of_Z 3) | 0%nat, 1%nat => number (of_Z (-7)) | 0%nat, _ => number (of_Z 0) | 1%nat, 0%nat => number (of_Z 1) | 1%nat, 1%nat => number (of_Z 10) | 1%nat, _ => number (of_Z 2) | _, 2%nat => number (of_Z (-4)) | _, _ => number (of_Z 4) end). split.
    + unfold numbers. split; [reflexivity|]. split; [reflexivity|]. split; [reflexivity|]. intros i j l Hi Hj Hl. destruct i as [|[|[|i]]]; try lia; (destruct j as [|[|[|j]]]; try lia); (eexists; split; [reflexivity|]; split; [apply whole; lia|reflexivity]).
    + intros i j l Hi Hj Hl. destruct i as [|[|[|i]]]; try lia; (destruct j as [|[|[|j]]]; try lia); rewrite B by lia; cbn [Z.abs]; lra.
  - each_vertex E.
    + exists {| largest := 40; error := / 1000 |}. split; [|exists {| largest := 40; error := / 1000 |}; split; [|reflexivity]]; (constructor; [|constructor]).
      * intros q Hq. change (q < 1)%nat in Hq. replace q with 0%nat by lia. change (snd _ * _)%nat with 4%nat. apply (small_sum 4 _ 4 40 (/ 1000)); [|cbn [largest error]; try lra; try lia..].
        change (0 <= all_kernel 2 1 (filters_params 1) 0 <= 4). unfold all_kernel, at_place. cbn [Sum rops zero add filters_params float_kernels nth_error matrix get]. rewrite !B by lia. cbn [Z.abs]. lra.
      * split; cbn [largest error]; unfold no_error; [rewrite Rmax_right; lra|lra].
    + exists {| largest := 40; error := / 1000 |}. split; [|exists {| largest := 80; error := 3 / 1000 |}; split; [|reflexivity]]; (constructor; [|constructor]).
      * split; cbn; lra.
      * cbn [layer_bounds dropout_rate]. unfold dropout_bounds. cbv zeta. cbn [largest error]. replace (/ (1 - 1 / 2)) with 2 by lra. split; [apply small_in_bounds; lra|]. split; [apply small_in_bounds; lra|]. split; [lra|]. rewrite U in *. lra.
    + exists {| largest := 320; error := 14 / 1000 |}. split; [|exists {| largest := 320; error := 14 / 1000 |}; split; [|reflexivity]]; (constructor; [|constructor]).
      * intros j Hj. change (j < 1)%nat in Hj. change (volume _) with 4%nat. change (filters_bounds (fst (2%nat, 3%nat))) with {| largest := 80; error := 3 / 1000 |}. apply (small_sum 4 _ 4 320 (14 / 1000)); [|cbn [largest error]; try lra; try lia..]. unfold all_weights, at_place. cbn [Sum rops zero add filters_params float_weights column get nth_error]. rewrite !B by lia. cbn [Z.abs]. lra.
      * split; cbn [largest error]; unfold no_error; [rewrite Rmax_right; lra|lra].
Qed.
