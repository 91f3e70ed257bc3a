(** C110: a label that is clearly the most likely is chosen in [float] too. *)
From Coq Require Import List Arith Bool NArith ZArith Reals Lia Lra.
From Flocq Require Import Core IEEE754.BinarySingleNaN IEEE754.Binary IEEE754.Bits.
From Verif Require Import Outcome Tensor_Model Tensor_Spec F32_Model Activation_Model Layer_Model Graph_Model Graph_Spec Net_Model Net_Spec FloatNet_Model FloatNet_Spec FloatNet_Props FloatRun_Spec FloatLayer_Proofs FloatRun_Proofs FloatRun_Props FloatFaith_Proofs FloatLabel_Proofs.
From Verif Require ModelFile_Model ModelFile_Spec ModelFile_Proofs ModelFile_Props Scaling_Spec Activation_Proofs Reduce_Model Reduce_Spec Reduce_Proofs Reduce_Props Activation_Props Net_Props FloatExp_Proofs FloatNet_Proofs FloatSoft_Proofs FloatSoft_Props.
Import ListNotations.
Local Open Scope R_scope.

(** The probability of label [j] is at least [factor] times that of any other label. *)
Definition clearly_best (t : T) (n j : nat) (factor : R) : Prop :=
  (j < n)%nat /\ exists b, get t 0 j 0 = Ok b /\ forall i, (i < n)%nat -> i <> j -> exists a, get t 0 i 0 = Ok a /\ factor * a <= b.

(** One vertex: what [maxIndexByRow] chooses (it is what the decoder of labels uses, see C17 and C45). *)
Theorem clear_label : forall lib gap v o t y n j, exponential_like (expf lib) -> monotone (expf lib) -> resolves (expf lib) gap ->
  chooses v ->
  near_output lib v o t y -> shaped t (1, n, 1)%nat -> clearly_best t n j (exp (number gap + 2 * error o)) -> Reduce_Model.maxIndexByRow y 0 0 = Ok j.
Proof.
  intros lib gap v o t y n j E M Re Hs Hn [g Tg] (Hj & b & Eb & H). destruct (proj1 Hn Hs) as (q & z & Nq & Eq & Ez).
  assert (Tq : exists f, is_tensor q (rows q) (cols q) (chans q) f). { destruct Nq as (_ & _ & _ & Nq). exists (fun i j l => match get q i j l with Ok a => a | _ => 0 end). repeat split. intros a c l Ha Hc Hl. destruct (Nq a c l Ha Hc Hl) as (x & _ & -> & _). reflexivity. }
  destruct Tq as [f Tq]. destruct (Activation_Props.softmax_formula q _ _ _ _ Tq) as (u & Eu & Tu). change (activate Softmax q) with (softmax q) in Eq. assert (u = t) as -> by congruence.
  assert (R1 : rows q = 1%nat) by (destruct Tu as (<- & _); apply Tg). assert (R2 : cols q = n) by (destruct Tu as (_ & <- & _); apply Tg). assert (R3 : chans q = 1%nat) by (destruct Tu as (_ & _ & <- & _); apply Tg). rewrite R1, R2, R3 in *. clear R1 R2 R3.
  destruct (near_split _ _ _ _ _ _ _ Tq Nq) as [Nz Bz]. destruct (FloatNet_Proofs.numbers_tensor _ _ _ _ _ Nz) as [Tz Nm]. set (h := FloatNet_Proofs.element z) in *.
  destruct (FloatSoft_Proofs.float_softmax_is lib z _ _ _ _ Tz) as (w & Ew & Tw). assert (w = y) as -> by congruence. set (l := Reduce_Spec.elements 1 n 1 h) in *.
  assert (In' : forall x, In x l <-> exists c, (c < n)%nat /\ h 0%nat c 0%nat = x). { intros x. unfold l. rewrite Reduce_Proofs.elements_in. split; [intros (r & c & k & Hr & Hc & Hk & <-); exists c; split; [exact Hc|]; f_equal; lia|intros (c & Hc & <-); exists 0%nat, c, 0%nat; repeat split; auto; lia]. }
  assert (Nn : forall c, (c < n)%nat -> is_number (h 0%nat c 0%nat)) by (intros c Hc; apply (Nm 0%nat c 0%nat); lia).
  assert (W : workable l). { split; [|exists (h 0%nat j 0%nat); split; [apply In'; eauto|now apply Nn]]. intros x Hx. apply In' in Hx as (c & Hc & <-). specialize (Nn c Hc). split; [now apply FloatSoft_Proofs.number_not_NaN|]. intros Z. rewrite Z in Nn. discriminate Nn. }
  (* the scores are clearly different *)
  assert (Sc : forall c, (c < n)%nat -> c <> j -> number (h 0%nat c 0%nat) + number gap <= number (h 0%nat j 0%nat)).
  { intros c Hc Nc. destruct (H c Hc Nc) as (a & Ea & L). destruct Tu as (_ & _ & _ & Tu). rewrite Tu in Ea, Eb by lia. injection Ea as <-. injection Eb as <-.
    destruct (Bz 0%nat c 0%nat ltac:(lia) Hc ltac:(lia)) as [_ B1]. destruct (Bz 0%nat j 0%nat ltac:(lia) Hj ltac:(lia)) as [_ B2]. apply Rabs_le_inv in B1. apply Rabs_le_inv in B2.
    assert (P : 0 < Scaling_Spec.sum (map exp (Reduce_Spec.elements 1 n 1 f))). { apply Activation_Proofs.sum_pos; [|intros x Hx; apply in_map_iff in Hx as (y0 & <- & _); apply exp_pos]. intros Z. apply (f_equal (@length R)) in Z. rewrite map_length, Reduce_Proofs.elements_length in Z. cbn [length] in Z. lia. }
    set (D := Scaling_Spec.sum _) in *. clearbody D. assert (L' : exp (number gap + 2 * error o + f 0%nat c 0%nat) <= exp (f 0%nat j 0%nat)). { rewrite exp_plus. apply (Rmult_le_reg_r (/ D)); [now apply Rinv_0_lt_compat|]. unfold Rdiv in L. lra. }
    assert (L2 : number gap + 2 * error o + f 0%nat c 0%nat <= f 0%nat j 0%nat). { destruct (Rle_or_lt (number gap + 2 * error o + f 0%nat c 0%nat) (f 0%nat j 0%nat)) as [Q|Q]; [exact Q|]. apply exp_increasing in Q. lra. }
    lra. }
  assert (Gp : 0 < number gap) by apply Re.
  set (pr := fun x => fdiv (expf lib (fsub x (FloatSoft_Proofs.top_of l))) (FloatSoft_Proofs.denominator (expf lib) l)) in *.
  assert (Pn : forall c, (c < n)%nat -> is_number (pr (h 0%nat c 0%nat))). { intros c Hc. apply (FloatSoft_Proofs.probability_is (expf lib) E l W). apply In'. eauto. }
  assert (Lt : forall c, (c < n)%nat -> c <> j -> number (pr (h 0%nat c 0%nat)) < number (pr (h 0%nat j 0%nat))).
  { intros c Hc Nc. apply (probability_clear (expf lib) E M gap Re l W); [apply In'; eauto|apply In'; eauto|now apply Nn|now apply Nn| |now apply Sc].
    intros x Hx. apply In' in Hx as (d & Hd & <-). change (Reduce_Spec.order (h 0%nat d 0%nat) <= number (h 0%nat j 0%nat)). rewrite (FloatSoft_Proofs.order_number _ (Nn d Hd)). destruct (Nat.eq_dec d j) as [->|Nd]; [lra|]. specialize (Sc d Hd Nd). lra. }
  destruct Tw as (_ & Tc & _ & Tw). destruct (Reduce_Props.index_of_max_by_row y 0 0 (fun c => pr (h 0%nat c 0%nat))) as (k & Ek & Hk & B1 & _).
  - intros c Hc. rewrite Tc in Hc. split; [apply Tw; lia|]. specialize (Pn c Hc). cbv beta. destruct (pr (h 0%nat c 0%nat)); try discriminate Pn; reflexivity.
  - lia.
  - rewrite Ek. f_equal. rewrite Tc in *. destruct (Nat.eq_dec k j) as [Q|Q]; [exact Q|]. exfalso. specialize (Lt k Hk Q). specialize (B1 j Hj). cbv beta in B1. change (Reduce_Spec.order (pr (h 0%nat j 0%nat)) <= Reduce_Spec.order (pr (h 0%nat k 0%nat))) in B1. rewrite !FloatSoft_Proofs.order_number in B1 by (apply Pn; assumption). lra.
Qed.
Print Assumptions clear_label.

(** Networks as in C109: whenever an output with softmax makes one label clearly the most likely in the exact prediction, the prediction in [float] chooses it. *)
Theorem float_label : forall cs o r rb l d net sh, ModelFile_Spec.joins_something cs -> ModelFile_Model.run cs (ModelFile_Model.new_dsl o r rb l) = Ok d -> ModelFile_Model.build d = Ok net ->
  outputs_end d -> well_shaped d net sh ->
  exists fuel0, forall fuel lib gap ps random given e least most bs, (fuel0 <= fuel)%nat -> exponential_like (expf lib) -> monotone (expf lib) -> resolves (expf lib) gap ->
  (forall id v, ModelFile_Model.vertex_at d id = Ok v -> faithful_vertex lib e v (sh id)) ->
  float_fit d ps -> float_given d most given -> bounds d net sh ps e least most bs -> normalizes_something d net ps random given least ->
  exists value float_value,
    snd (predict (network d net) (forward_at d (fun id => exact_params (ps id)) random false) fuel (map exact given) fresh) = Ok (map value (outputs (network d net))) /\
    float_predict lib d (network d net) ps fuel given = Ok (map float_value (outputs (network d net))) /\
    forall id v n j, In id (outputs (network d net)) -> ModelFile_Model.vertex_at d id = Ok v -> chooses v -> sh id = (1, n, 1)%nat ->
      clearly_best (value id) n j (exp (number gap + 2 * error (bs id))) -> Reduce_Model.maxIndexByRow (float_value id) 0 0 = Ok j.
Proof.
  intros cs o r rb l d net sh J Rn Bd OE W. destruct (float_prediction cs o r rb l d net sh J Rn Bd OE W) as [fuel0 H]. exists fuel0. intros fuel lib gap ps random given e least most bs Hf E M Re Fa Fi Gi Bo Ac0.
  destruct (H fuel lib ps random given e least most bs Hf Fa Fi Gi Bo Ac0) as (value & fvalue & V1 & V2 & N). exists value, fvalue. split; [exact V1|]. split; [exact V2|]. intros id v n j Hid Ev Es Sh C. destruct (N id Hid) as (S1 & v' & Ev' & Nv). assert (v' = v) as -> by congruence. rewrite Sh in S1. exact (clear_label lib gap v (bs id) _ _ n j E M Re Es Nv S1 C).
Qed.
Print Assumptions float_label.

(** ** Examples *)
(** The correctly rounded exponential function tells scores apart that differ by 2^-19. *)
Example ex_resolves : forall gap, is_number gap -> / 524288 <= number gap -> resolves (expf FloatSoft_Props.precise) gap.
Proof. exact rounded_exp_resolves. Qed.
(** A layer with ReLU and two labels behind it; the scores are within three thousandths of the exact ones. *)
Import ModelFile_Model ModelFile_Spec ModelFile_Props Net_Props.
Local Open Scope R_scope.
Definition two_labels : list call := [Add_input full (1, 2, 1)%N (1, 2, 1)%N false relu; Change (Use_bias true) 1; Add_layer 1 (1, 2, 1)%N (1, 2, 1)%N full true softmax].
Definition label_shapes (id : nat) : Layer_Model.shape := (1, 2, 1)%nat.
Definition label_params (id : nat) : float_params :=
  match id with
  | 1%nat => small_params 1
  | _ => {| float_weights := matrix [[of_Z 1; of_Z 0]; [of_Z 0; of_Z 1]]; float_kernels := []; float_biases := row []; float_rate := float0 |}
  end.
Definition label_bounds (id : nat) : bound := match id with 1%nat => {| largest := 31; error := 2 / 1000 |} | _ => {| largest := 31; error := 3 / 1000 |} end.
Example ex_label_network : joins_something two_labels /\ exists d, run two_labels (new_dsl adam 5 5 categoricalCrossEntropy) = Ok d /\ exists net, build d = Ok net /\
  outputs_end d /\ well_shaped d net label_shapes /\ outputs (network d net) = [2%nat] /\
  (forall lib id v, vertex_at d id = Ok v -> faithful_vertex lib no_error v (label_shapes id)) /\
  float_fit d label_params /\ float_given d (fun _ => 10) [row [of_Z 3; of_Z 4]] /\ bounds d net label_shapes label_params no_error (fun _ => 0) (fun _ => 10) label_bounds /\
  forall random, normalizes_something d net label_params random [row [of_Z 3; of_Z 4]] (fun _ => 0).
Proof.
  split; [solve [no_empty]|]. run_program H. build_network. split; [unfold outputs_end; each_in|]. split; [each_vertex E; reflexivity|].
  split; [reflexivity|].
  split; [intros lib; each_vertex E; intros _; cbn; [apply faithful_relu|left; reflexivity]|].
  pose proof unit_value as U. pose proof tiny_small as Y. pose proof FloatNet_Proofs.tiny_pos as Y0.
  assert (B : forall z, (Z.abs z <= 10)%Z -> Rabs (number (of_Z z)) = IZR (Z.abs z)) by (intros z Hz; rewrite (proj2 (whole z ltac:(lia))); now rewrite abs_IZR).
  split; [|split; [|split; [|intros random; apply no_normalization; each_vertex E; intros I; cbn in I; repeat (destruct I as [I|I]; [discriminate I|]); exact I]]].
  - each_vertex E; (split; [intros _|split; [discriminate|split; [discriminate|intros Hb; try discriminate Hb]]]).
    + change (numbers_of (matrix [[of_Z 1; of_Z (-1)]; [of_Z 2; of_Z 1]]) (2, 2, 1)%nat). exists (fun i j _ => match i, j with 0%nat, 0%nat => number (of_Z 1) | 0%nat, _ => number (of_Z (-1)) | _, 0%nat => number (of_Z 2) | _, _ => number (of_Z 1) end). unfold numbers. split; [reflexivity|]. split; [reflexivity|]. split; [reflexivity|]. intros i j l Hi Hj Hl.
      destruct i as [|[|i]]; [| |lia]; (destruct j as [|[|j]]; [| |lia]); (eexists; split; [reflexivity|]; split; [apply whole; lia|reflexivity]).
    + change (numbers_of (row [of_Z 1; of_Z 0]) (1, 2, 1)%nat). exists (fun _ j _ => match j with 0%nat => number (of_Z 1) | _ => number (of_Z 0) end). unfold numbers. split; [reflexivity|]. split; [reflexivity|]. split; [reflexivity|]. intros i j l Hi Hj Hl.
      destruct j as [|[|j]]; [| |lia]; (eexists; split; [reflexivity|]; split; [apply whole; lia|reflexivity]).
    + change (numbers_of (matrix [[of_Z 1; of_Z 0]; [of_Z 0; of_Z 1]]) (2, 2, 1)%nat). exists (fun i j _ => match i, j with 0%nat, 0%nat => number (of_Z 1) | 0%nat, _ => number (of_Z 0) | _, 0%nat => number (of_Z 0) | _, _ => number (of_Z 1) end). unfold numbers. split; [reflexivity|]. split; [reflexivity|]. split; [reflexivity|]. intros i j l Hi Hj Hl.
      destruct i as [|[|i]]; [| |lia]; (destruct j as [|[|j]]; [| |lia]); (eexists; split; [reflexivity|]; split; [apply whole; lia|reflexivity]).
  - constructor; [|constructor]. eexists. split; [reflexivity|]. change (numbers_up_to 10 (row [of_Z 3; of_Z 4]) (1, 2, 1)%nat). exists (fun _ j _ => match j with 0%nat => number (of_Z 3) | _ => number (of_Z 4) end). split.
    + unfold numbers. split; [reflexivity|]. split; [reflexivity|]. split; [reflexivity|]. intros i j l Hi Hj Hl. destruct j as [|[|j]]; [| |lia]; (eexists; split; [reflexivity|]; split; [apply whole; lia|reflexivity]).
    + intros i j l Hi Hj Hl. destruct j as [|[|j]]; [| |lia]; rewrite B by lia; cbn [Z.abs]; lra.
  - each_vertex E.
    + exists {| largest := 30; error := / 1000 |}. split; [|exists {| largest := 31; error := 2 / 1000 |}; split; [|exists {| largest := 31; error := 2 / 1000 |}; split; [|reflexivity]]]; (constructor; [|constructor]).
      * intros j Hj. change (j < 2)%nat in Hj. change (volume _) with 2%nat. change (label_params 1) with (small_params 1). apply (small_sum 2 _ 3 30 (/ 1000)); [|cbn [largest error]; try lra; try lia..]. unfold all_weights, at_place. destruct j as [|[|j]]; [| |lia]; cbn [Sum rops zero add small_params float_weights matrix get nth_error]; rewrite !B by lia; cbn [Z.abs]; lra.
      * intros a j l Ha Hj Hl. change (a < 1)%nat in Ha. change (j < 2)%nat in Hj. change (label_params 1) with (small_params 1). assert (Q : 0 <= Rabs (at_place (float_biases (small_params 1)) a j l) <= 1). { split; [apply Rabs_pos|]. unfold at_place. destruct j as [|[|j]]; [| |lia]; cbn [small_params float_biases row get nth_error]; rewrite B by lia; cbn [Z.abs]; lra. }
        unfold bias_bounds. cbn [largest error]. set (b := Rabs _) in *. clearbody b. split; [apply small_in_bounds; rewrite U; lra|]. rewrite U. lra.
      * split; cbn [largest error]; unfold no_error; [rewrite Rmax_right; lra|lra].
    + exists {| largest := 31; error := 3 / 1000 |}. split; [|exists {| largest := 31; error := 3 / 1000 |}; split; [|reflexivity]]; (constructor; [|constructor]).
      * intros j Hj. change (j < 2)%nat in Hj. change (volume _) with 2%nat. change (label_bounds (fst (1%nat, 2%nat))) with {| largest := 31; error := 2 / 1000 |}. apply (small_sum 2 _ 1 31 (3 / 1000)); [|cbn [largest error]; try lra; try lia..]. unfold all_weights, at_place. destruct j as [|[|j]]; [| |lia]; cbn [Sum rops zero add label_params float_weights matrix get nth_error]; rewrite !B by lia; cbn [Z.abs]; lra.
      * split; cbn; lra.
Qed.
(** Exact scores 12 and 1, and scores in [float] near them: the first label is chosen. *)
Example ex_first_label : forall v, chooses v ->
  exists t y, near_output FloatSoft_Props.precise v {| largest := 12; error := / 1000 |} t y /\ shaped t (1, 2, 1)%nat /\ clearly_best t 2 0 (exp (number (of_Z 1) + 2 * / 1000)) /\ Reduce_Model.maxIndexByRow y 0 0 = Ok 0%nat.
Proof.
  intros v Hs. set (z := row [of_Z 12; of_Z 1]).
  assert (Nz : numbers z 1 2 1 (fun _ c _ => match c with 0%nat => 12 | _ => 1 end)). { unfold numbers. split; [reflexivity|]. split; [reflexivity|]. split; [reflexivity|]. intros i j l Hi Hj Hl. destruct j as [|[|j]]; [| |lia]; (eexists; split; [reflexivity|]; split; [apply whole; lia|apply whole; lia]). }
  pose proof (exact_tensor z _ _ _ _ Nz) as Te. destruct (Activation_Props.softmax_formula _ _ _ _ _ Te) as (t & Et & Tt). destruct (FloatNet_Proofs.numbers_tensor _ _ _ _ _ Nz) as [Tz _]. destruct (FloatSoft_Proofs.float_softmax_is FloatSoft_Props.precise z _ _ _ _ Tz) as (y & Ey & _).
  assert (NO : near_output FloatSoft_Props.precise v {| largest := 12; error := / 1000 |} t y).
  { split; [|contradiction]. intros _. exists (exact z), z. split; [|auto]. eapply near_join; [exact Te|exact Nz|]. intros i j l Hi Hj Hl. cbn [largest error]. rewrite Rminus_diag_eq, Rabs_R0 by reflexivity. split; [|lra]. destruct j; rewrite Rabs_pos_eq; lra. }
  assert (St : shaped t (1, 2, 1)%nat) by (eexists; exact Tt). exists t, y. split; [exact NO|]. split; [exact St|].
  assert (C : clearly_best t 2 0 (exp (number (of_Z 1) + 2 * / 1000))).
  { split; [lia|]. destruct Tt as (_ & _ & _ & Tt). eexists. split; [apply Tt; lia|]. intros i Hi Ni. eexists. split; [apply Tt; lia|]. destruct i as [|[|i]]; [contradiction| |lia]. set (D := Scaling_Spec.sum _).
    assert (P : 0 < D). { apply Activation_Proofs.sum_pos; [discriminate|intros x Hx; apply in_map_iff in Hx as (y0 & <- & _); apply exp_pos]. }
    unfold Rdiv. rewrite <- Rmult_assoc, <- exp_plus. apply Rmult_le_compat_r; [left; now apply Rinv_0_lt_compat|]. left. apply exp_increasing. rewrite (proj2 (whole 1 ltac:(lia))). lra. }
  split; [exact C|]. apply (clear_label FloatSoft_Props.precise (of_Z 1) v {| largest := 12; error := / 1000 |} t y 2 0); auto.
  - exact FloatExp_Proofs.rounded_exp_like.
  - exact FloatExp_Proofs.rounded_exp_monotone.
  - apply ex_resolves; [now apply whole|]. rewrite (proj2 (whole 1 ltac:(lia))). lra.
Qed.
