(** C111: the probabilities a network computes in [float] are near the exact ones. *)
From Coq Require Import List Arith Bool NArith ZArith Reals Lia Lra.
From Flocq Require Import Core IEEE754.BinarySingleNaN IEEE754.Binary IEEE754.Bits.
From Verif Require Import Outcome Tensor_Model Tensor_Spec F32_Model Activation_Model Layer_Model Graph_Model Graph_Spec Net_Model Net_Spec FloatNet_Model FloatNet_Spec FloatNet_Props FloatRun_Spec FloatLayer_Proofs FloatProb_Proofs FloatRun_Proofs FloatRun_Props FloatLabel_Props.
From Verif Require ModelFile_Model ModelFile_Spec ModelFile_Props Net_Props Reduce_Spec Scaling_Spec Activation_Props FloatExp_Proofs FloatFaith_Proofs FloatNet_Proofs FloatSoft_Proofs FloatSoft_Props.
Import ListNotations.
Local Open Scope R_scope.

(** Softmax of [n] scores up to [x]: each probability, also a very small one, is off by at most the factor [softmax_factor n eps x], which is a little above 1, and by
    what gets lost below the smallest [float].  [eps] is the accuracy of the exponential function of the C library. *)
Theorem float_probabilities : forall lib n eps, 0 <= eps < 1 -> exponential_like (expf lib) -> accurate_exp (expf lib) eps -> INR n * tiny < 1 ->
  forall t r c k f x, numbers t r c k f -> (0 < n)%nat -> (r * c * k)%nat = n -> (forall i j l, (i < r)%nat -> (j < c)%nat -> (l < k)%nat -> Rabs (f i j l) <= x) -> in_bounds (4 * x) ->
  exists y h, float_softmax lib t = Ok y /\ numbers y r c k h /\ forall i j l, (i < r)%nat -> (j < c)%nat -> (l < k)%nat ->
    let p := exp (f i j l) / Scaling_Spec.sum (map exp (Reduce_Spec.elements r c k f)) in let o := softmax_factor n eps x in
    p / o - 2 * tiny <= h i j l <= o * p + (o + 1) * tiny.
Proof.
  intros lib n eps He El Ac Hn t r c k f x Nt N0 En Bt XB. destruct (softmax_faithful lib n eps He El Ac Hn t r c k f x Nt N0 En Bt XB) as (y & h & Ey & Ny & H). exists y, h. split; [exact Ey|]. split; [exact Ny|]. intros i j l Hi Hj Hl. now apply H.
Qed.
Print Assumptions float_probabilities.
(** The factor is 1 but for the rounding of the scores, of the exponential function and of the sum. *)
Theorem softmax_factor_small : forall n eps x, 0 <= eps -> 0 <= x -> eps + x / 2 ^ 20 + INR n / 2 ^ 40 <= / 16 -> 1 <= softmax_factor n eps x <= 1 + 4 * eps + x / 2 ^ 20 + INR n / 2 ^ 40 + / 2 ^ 20.
Proof.
  intros n eps x He Hx H. pose proof unit_value as U. pose proof FloatNet_Proofs.tiny_pos as Y0. pose proof FloatSoft_Proofs.unit64_pos as V0. pose proof (pos_INR n) as Hn.
  assert (V : double_error <= / 2 ^ 50). { Transparent double_error. unfold double_error. Opaque double_error. apply Rinv_le; [apply pow_lt; lra|apply Rle_pow; [lra|lia]]. } assert (Y : tiny <= / 2 ^ 50). { Transparent tiny. unfold tiny. Opaque tiny. apply Rinv_le; [apply pow_lt; lra|apply Rle_pow; [lra|lia]]. }
  assert (V20 : 2 ^ 20 = 1048576) by ring. assert (V40 : 2 ^ 40 = 1099511627776) by ring. assert (V50 : 2 ^ 50 = 1125899906842624) by ring. rewrite V20, V40 in *. rewrite V50 in *.
  assert (N1 : INR n * tiny <= INR n / 1125899906842624) by (apply Rmult_le_compat_l; lra). assert (N2 : INR n * double_error <= INR n / 1125899906842624) by (apply Rmult_le_compat_l; lra). assert (N0 : 0 <= INR n * tiny) by (apply Rmult_le_pos; lra). assert (N3 : 0 <= INR n * double_error) by (apply Rmult_le_pos; lra).
  split; [apply factor_up; lra|].
  assert (Low : forall e, 0 <= e <= / 2 -> / (1 - e) <= exp (2 * e)). { intros e E. apply Rle_trans with (1 + 2 * e); [|apply exp_ineq1_le]. apply (Rmult_le_reg_r (1 - e)); [lra|]. rewrite Rinv_l by lra. assert (0 <= e * (1 - 2 * e)) by (apply Rmult_le_pos; lra). lra. }
  assert (Up : forall e, 0 <= e <= / 2 -> (1 + e) / (1 - e) <= exp (3 * e)). { intros e E. replace (3 * e) with (e + 2 * e) by ring. rewrite exp_plus. apply Rmult_le_compat; [lra|left; apply Rinv_0_lt_compat; lra|apply exp_ineq1_le|now apply Low]. }
  assert (Pw : / (1 - double_error) ^ n <= exp (2 * (INR n * double_error))). { assert (D : / (1 - double_error) <= exp (2 * double_error)) by (apply Low; lra). rewrite <- pow_inv by lra. replace (2 * (INR n * double_error)) with (INR n * (2 * double_error)) by ring. replace (exp (INR n * (2 * double_error))) with (exp (2 * double_error) ^ n) by (clear; induction n as [|n IH]; [cbn; rewrite Rmult_0_l, exp_0; reflexivity|rewrite S_INR, Rmult_plus_distr_r, Rmult_1_l, exp_plus, <- IH; cbn [pow]; ring]). apply pow_incr. split; [left; apply Rinv_0_lt_compat; lra|exact D]. }
  set (E := 2 * (unit_error * (2 * x) + tiny) + 3 * eps + 2 * (INR n * tiny) + (3 * unit_error + 2 * (INR n * double_error))).
  assert (F : softmax_factor n eps x <= exp E).
  { unfold softmax_factor, E. rewrite !exp_plus. apply Rmult_le_compat.
    - apply Rmult_le_pos; [apply Rmult_le_pos; [left; apply exp_pos|]|]; [apply Rmult_le_pos; [lra|left; apply Rinv_0_lt_compat; lra]|left; apply Rinv_0_lt_compat; lra].
    - apply Rmult_le_pos; [apply Rmult_le_pos; [lra|left; apply Rinv_0_lt_compat; lra]|left; apply Rinv_0_lt_compat; apply pow_lt; lra].
    - apply Rmult_le_compat; [|left; apply Rinv_0_lt_compat; lra| |apply Low; lra].
      + apply Rmult_le_pos; [left; apply exp_pos|]. apply Rmult_le_pos; [lra|left; apply Rinv_0_lt_compat; lra].
      + apply Rmult_le_compat_l; [left; apply exp_pos|]. apply Up. lra.
    - apply Rmult_le_compat; [apply Rmult_le_pos; [lra|left; apply Rinv_0_lt_compat; lra]|left; apply Rinv_0_lt_compat; apply pow_lt; lra|apply Up; lra|exact Pw]. }
  assert (EB : 0 <= E <= / 4) by (unfold E; rewrite U; lra). assert (F2 : exp E <= 1 + 4 / 3 * E).
  { pose proof (exp_ineq1_le (- E)) as Q. rewrite exp_Ropp in Q. apply Rle_trans with (/ (1 + - E)).
    - rewrite <- (Rinv_inv (exp E)). apply Rinv_le; lra.
    - apply (Rmult_le_reg_r (1 + - E)); [lra|]. rewrite Rinv_l by lra. assert (0 <= E * (/ 4 - E)) by (apply Rmult_le_pos; lra). lra. }
  eapply Rle_trans; [exact F|]. eapply Rle_trans; [exact F2|]. unfold E. rewrite U. lra.
Qed.
Print Assumptions softmax_factor_small.

(** Scores that differ by [d] at most have probabilities that differ by the factor [exp (2 * d)] at most. *)
Theorem probabilities_of_near_scores : forall r c k (f h : nat -> nat -> nat -> R) d, 0 <= d -> (forall i j l, (i < r)%nat -> (j < c)%nat -> (l < k)%nat -> Rabs (h i j l - f i j l) <= d) ->
  forall i j l, (i < r)%nat -> (j < c)%nat -> (l < k)%nat ->
  let p := exp (f i j l) / Scaling_Spec.sum (map exp (Reduce_Spec.elements r c k f)) in let q := exp (h i j l) / Scaling_Spec.sum (map exp (Reduce_Spec.elements r c k h)) in
  p / exp (2 * d) <= q <= exp (2 * d) * p /\ Rabs (q - p) <= exp (2 * d) - 1.
Proof. intros r c k f h d D0 H i j l Hi Hj Hl. cbv zeta. now apply (softmax_stable r c k f h d D0 H i j l Hi Hj Hl). Qed.
Print Assumptions probabilities_of_near_scores.

(** A network with softmax at an output: the probabilities it predicts are near the exact ones. *)
Definition probability_bound (n : nat) (eps : R) (o : bound) : bound :=
  let factor := softmax_factor n eps (largest o + error o) in {| largest := 1; error := exp (2 * error o) - 1 + (factor - 1 + (factor + 1) * tiny) |}.
Theorem float_prediction_probabilities : forall cs o r rb l d net sh, ModelFile_Spec.joins_something cs -> ModelFile_Model.run cs (ModelFile_Model.new_dsl o r rb l) = Ok d -> ModelFile_Model.build d = Ok net ->
  outputs_end d -> well_shaped d net sh ->
  exists fuel0, forall fuel lib eps ps random given e least most bs, (fuel0 <= fuel)%nat -> 0 <= eps < 1 -> exponential_like (expf lib) -> accurate_exp (expf lib) eps ->
  (forall id v, ModelFile_Model.vertex_at d id = Ok v -> faithful_vertex lib e v (sh id)) ->
  float_fit d ps -> float_given d most given -> bounds d net sh ps e least most bs -> normalizes_something d net ps random given least ->
  exists value float_value,
    snd (predict (network d net) (forward_at d (fun id => exact_params (ps id)) random false) fuel (map exact given) fresh) = Ok (map value (outputs (network d net))) /\
    float_predict lib d (network d net) ps fuel given = Ok (map float_value (outputs (network d net))) /\
    forall id v, In id (outputs (network d net)) -> ModelFile_Model.vertex_at d id = Ok v -> chooses v -> INR (volume (sh id)) * tiny < 1 -> in_bounds (4 * (largest (bs id) + error (bs id))) ->
      near (probability_bound (volume (sh id)) eps (bs id)) (value id) (float_value id).
Proof.
  intros cs o r rb l d net sh J Rn Bd OE W. destruct (float_prediction cs o r rb l d net sh J Rn Bd OE W) as [fuel0 H]. exists fuel0. intros fuel lib eps ps random given e least most bs Hf He El Ac Fa Fi Gi Bo Ac0.
  destruct (H fuel lib ps random given e least most bs Hf Fa Fi Gi Bo Ac0) as (value & fvalue & V1 & V2 & N). exists value, fvalue. split; [exact V1|]. split; [exact V2|]. intros id v Hid Ev Ch Hn HB. destruct (N id Hid) as (S1 & v' & Ev' & Nv). assert (v' = v) as -> by congruence.
  destruct (proj1 Nv Ch) as (q & z & Nq & Eq & Ez). clear - He El Ac Hn HB Nq Eq Ez S1. destruct (sh id) as [[r c] k]. destruct S1 as [g Tg]. change (activate Softmax q) with (softmax q) in Eq.
  assert (Tq : exists f, is_tensor q (rows q) (cols q) (chans q) f). { destruct Nq as (_ & _ & _ & Nq). exists (fun i j l => match get q i j l with Ok a => a | _ => 0 end). repeat split. intros a c' l Ha Hc Hl. destruct (Nq a c' l Ha Hc Hl) as (x & _ & -> & _). reflexivity. }
  destruct Tq as [f Tq]. destruct (Activation_Props.softmax_formula q _ _ _ _ Tq) as (u & Eu & Tu). assert (Q : u = value id) by congruence. subst u.
  assert (R1 : rows q = r) by (destruct Tu as (<- & _); apply Tg). assert (R2 : cols q = c) by (destruct Tu as (_ & <- & _); apply Tg). assert (R3 : chans q = k) by (destruct Tu as (_ & _ & <- & _); apply Tg). rewrite R1, R2, R3 in Tq.
  destruct (softmax_near lib (fun x => softmax_factor (r * c * k) eps x - 1 + (softmax_factor (r * c * k) eps x + 1) * tiny) q z r c k f (bs id) (probability_bound (r * c * k) eps (bs id)) (faithful_softmax_is lib (r * c * k) eps He El Ac Hn) Tq Nq) as (t & y & Et & Ey & Ny).
  - split; [exact HB|]. split; cbn [largest error probability_bound]; lra.
  - assert (t = value id) by congruence. assert (y = fvalue id) by congruence. now subst.
Qed.
Print Assumptions float_prediction_probabilities.

(** ** Examples *)
(** The library function that rounds correctly: scores up to 20 of ten labels; the probabilities are within 1 / 10000 of themselves. *)
Example ex_ten_labels : exponential_like (expf FloatSoft_Props.precise) /\ accurate_exp (expf FloatSoft_Props.precise) unit_error /\ in_bounds (4 * 20) /\ INR 10 * tiny < 1 /\ 1 <= softmax_factor 10 unit_error 20 <= 1 + / 10000.
Proof.
  pose proof unit_value as U. pose proof tiny_small as Y. assert (I : INR 10 = 10) by (cbn; ring). assert (V20 : 2 ^ 20 = 1048576) by ring. assert (V40 : 2 ^ 40 = 1099511627776) by ring.
  split; [exact FloatExp_Proofs.rounded_exp_like|]. split; [exact FloatFaith_Proofs.rounded_exp_accurate|]. split; [apply small_in_bounds; lra|]. rewrite I. split; [lra|].
  destruct (softmax_factor_small 10 unit_error 20) as [A B]; rewrite ?I, ?V20, ?V40, ?U in *; try lra.
Qed.
(** The network with two labels of C110: its probabilities are within one hundredth of the exact ones. *)
Example ex_two_labels : INR (volume (label_shapes 2)) * tiny < 1 /\ in_bounds (4 * (largest (label_bounds 2) + error (label_bounds 2))) /\ error (probability_bound (volume (label_shapes 2)) unit_error (label_bounds 2)) <= / 100.
Proof.
  pose proof unit_value as U. pose proof tiny_small as Y. pose proof FloatNet_Proofs.tiny_pos as Y0. assert (I : INR 2 = 2) by (cbn; ring). change (volume (label_shapes 2)) with 2%nat. change (label_bounds 2) with {| largest := 31; error := 3 / 1000 |}. unfold probability_bound. cbv zeta. cbn [largest error]. rewrite I.
  assert (V20 : 2 ^ 20 = 1048576) by ring. assert (V40 : 2 ^ 40 = 1099511627776) by ring.
  split; [lra|]. split; [apply small_in_bounds; lra|]. destruct (softmax_factor_small 2 unit_error (31 + 3 / 1000)) as [A B]; rewrite ?I, ?V20, ?V40, ?U in *; try lra.
  set (o := softmax_factor _ _ _) in *. clearbody o. assert (T1 : (o + 1) * tiny <= 3 * (1 / 1024)) by (apply Rmult_le_compat; lra).
  assert (X1 : exp (2 * (3 / 1000)) <= 1 + 7 / 1000). { pose proof (exp_ineq1_le (- (2 * (3 / 1000)))) as Q. rewrite exp_Ropp in Q. apply Rle_trans with (/ (1 - 6 / 1000)); [rewrite <- (Rinv_inv (exp (2 * (3 / 1000)))); apply Rinv_le; lra|lra]. }
  lra.
Qed.
