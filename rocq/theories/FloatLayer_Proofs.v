(** Proofs about predictions in [float] beside the exact ones. *)
From Coq Require Import List Arith Bool NArith ZArith Reals Lia Lra.
From Flocq Require Import Core IEEE754.BinarySingleNaN IEEE754.Binary IEEE754.Bits.
From Verif Require Import Outcome Tensor_Model Tensor_Spec F32_Model F32_Proofs MatMul_Proofs Activation_Model Layer_Model Graph_Model Graph_Spec Net_Model Net_Spec FloatNet_Model FloatNet_Spec FloatNet_Proofs FloatRun_Spec FloatLip_Proofs.
From Verif Require Reduce_Model ModelFile_Model ModelFile_Spec ModelFile_Proofs Activation_Props FloatAct_Proofs FloatConv_Proofs Conv_Spec Conv_Proofs Layer_Proofs FloatSoft_Proofs Graph_Forward Graph_Props Net_Proofs Net_Vertex Net_Graph Net_Flow.
Import ListNotations.
Local Open Scope R_scope.
Notation SumR := (Sum rops).

(** ** Tensors that are near each other *)
Lemma near_split : forall o t y r c k f, is_tensor t r c k f -> near o t y -> numbers y r c k (fun i j l => number (element y i j l)) /\ forall i j l, (i < r)%nat -> (j < c)%nat -> (l < k)%nat -> Rabs (f i j l) <= largest o /\ Rabs (number (element y i j l) - f i j l) <= error o.
Proof.
  intros o t y r c k f (<- & <- & <- & Ht) (E1 & E2 & E3 & H). split.
  - unfold numbers. split; [auto|]. split; [auto|]. split; [auto|]. intros i j l Hi Hj Hl. destruct (H i j l Hi Hj Hl) as (a & x & _ & Ex & Nx & _). exists x. split; [exact Ex|]. split; [exact Nx|]. unfold element. now rewrite Ex.
  - intros i j l Hi Hj Hl. destruct (H i j l Hi Hj Hl) as (a & x & Ea & Ex & _ & B1 & B2). rewrite (Ht i j l Hi Hj Hl) in Ea. injection Ea as <-. unfold element. rewrite Ex. auto.
Qed.
Lemma near_join : forall o t y r c k f h, is_tensor t r c k f -> numbers y r c k h -> (forall i j l, (i < r)%nat -> (j < c)%nat -> (l < k)%nat -> Rabs (f i j l) <= largest o /\ Rabs (h i j l - f i j l) <= error o) -> near o t y.
Proof.
  intros o t y r c k f h (<- & <- & <- & Ht) (E1 & E2 & E3 & H) B. unfold near. split; [auto|]. split; [auto|]. split; [auto|]. intros i j l Hi Hj Hl. destruct (H i j l Hi Hj Hl) as (x & Ex & Nx & Vx). destruct (B i j l Hi Hj Hl) as [B1 B2]. exists (f i j l), x. rewrite Vx. rewrite (Ht i j l Hi Hj Hl). auto.
Qed.
Lemma near_within : forall i o t y, within i o -> near i t y -> near o t y.
Proof. intros i o t y [W1 W2] (E1 & E2 & E3 & H). split; [exact E1|]. split; [exact E2|]. split; [exact E3|]. intros a b c Ha Hb Hc. destruct (H a b c Ha Hb Hc) as (z & x & Ea & Ex & Nx & B1 & B2). exists z, x. repeat split; auto; lra. Qed.
Lemma flat_place : forall r c k p, (p < r * c * k)%nat -> (c * r <> 0 /\ p mod (c * r) / c < r /\ (p mod (c * r)) mod c < c /\ p / (c * r) < k)%nat.
Proof.
  intros r c k p H. assert (N : (c * r <> 0)%nat) by (intros Z; rewrite (Nat.mul_comm r c), Z in H; lia). split; [exact N|]. assert (C : (c <> 0)%nat) by (intros ->; lia). pose proof (Nat.mod_upper_bound p (c * r) N) as B. split; [apply Nat.div_lt_upper_bound; lia|]. split; [now apply Nat.mod_upper_bound|]. apply Nat.div_lt_upper_bound; [exact N|]. rewrite (Nat.mul_comm c r). exact H.
Qed.
Lemma near_flatten : forall o t y, near o t y -> near o (if (rows t =? 1)%nat then t else row_flatten t) (if (rows y =? 1)%nat then y else row_flatten y).
Proof.
  intros o t y (E1 & E2 & E3 & H). rewrite <- E1. destruct (rows t =? 1)%nat; [repeat split; auto|]. unfold near. cbn [rows cols chans row_flatten]. unfold size. rewrite <- E1, <- E2, <- E3. repeat split. intros i j l Hi Hj Hl. replace i with 0%nat by lia. replace l with 0%nat by lia. cbn [get row_flatten Nat.eqb andb]. unfold flat. rewrite <- E1, <- E2.
  destruct (flat_place (rows t) (cols t) (chans t) j Hj) as (N & P1 & P2 & P3). destruct (Nat.eqb_spec (cols t * rows t) 0) as [Z|_]; [contradiction|]. now apply H.
Qed.
Lemma near_concat2 : forall o t1 y1 t2 y2, near o t1 y1 -> near o t2 y2 -> rows t1 = rows t2 -> chans t1 = chans t2 -> exists t y, concat_wide t1 t2 = Ok t /\ concat_wide y1 y2 = Ok y /\ near o t y /\ rows t = rows t1 /\ chans t = chans t1.
Proof.
  intros o t1 y1 t2 y2 (A1 & A2 & A3 & A) (B1 & B2 & B3 & B) R K. unfold concat_wide. rewrite <- A1, <- B1, R, Nat.eqb_refl. do 2 eexists. split; [reflexivity|]. split; [reflexivity|]. cbn [rows chans]. split; [|auto]. unfold near. cbn [rows cols chans get]. rewrite <- A2, <- B2, <- A3. repeat split.
  intros i j l Hi Hj Hl. destruct (Nat.ltb_spec j (cols t1)) as [L|L]; [apply A; lia|apply B; lia].
Qed.
Lemma near_concat_rest : forall o ts ys t y, Forall2 (near o) ts ys -> near o t y -> Forall (fun u => rows u = rows t /\ chans u = chans t) ts ->
  exists t' y', fold_left (fun acc next => do acc <- acc; concat_wide acc next) ts (Ok t) = Ok t' /\ fold_left (fun acc next => do acc <- acc; concat_wide acc next) ys (Ok y) = Ok y' /\ near o t' y'.
Proof.
  intros o ts ys t y F. revert t y. induction F as [|u z ts ys H F IH]; intros t y N G; [exists t, y; repeat split; try reflexivity; apply N|]. apply Forall_cons_iff in G as [[G1 G2] G]. cbn [fold_left obind].
  destruct (near_concat2 o t y u z N H ltac:(congruence) ltac:(congruence)) as (t' & y' & E1 & E2 & N' & R' & K'). rewrite E1, E2. apply IH; [exact N'|]. rewrite R', K'. exact G.
Qed.
Lemma near_concat : forall o ts ys r k, Forall2 (near o) ts ys -> Forall (fun u => rows u = r /\ chans u = k) ts -> (2 <= length ts)%nat ->
  exists t y, concat_forward ts = Ok t /\ near o t y /\ forall lib v p, float_layer_forward lib v p Concat ys = Ok y.
Proof.
  intros o ts ys r k F G L. destruct F as [|a x ts ys Ha F]; [cbn in L; lia|]. destruct F as [|b z ts ys Hb F]; [cbn in L; lia|]. apply Forall_cons_iff in G as [[Ra Ka] G]. apply Forall_cons_iff in G as [[Rb Kb] G].
  destruct (near_concat2 o a x b z Ha Hb ltac:(congruence) ltac:(congruence)) as (t & y & E1 & E2 & N & R' & K'). destruct (near_concat_rest o ts ys t y F N) as (t' & y' & F1 & F2 & N'); [rewrite R', K', Ra, Ka; exact G|].
  exists t', y'. split; [unfold concat_forward; rewrite E1; exact F1|]. split; [exact N'|]. intros lib v p. cbn [float_layer_forward]. rewrite E2. exact F2.
Qed.

(** ** Sums *)
Lemma sum_error_mono : forall n s t, 0 <= s <= t -> sum_error n s <= sum_error n t.
Proof. intros n s t H. unfold sum_error. pose proof (grow (n + 1)). apply Rplus_le_compat_r. apply Rmult_le_compat_l; lra. Qed.
Lemma sums_near : forall n (f f' g : nat -> R) e, (forall i, (i < n)%nat -> Rabs (f i - f' i) <= g i * e) -> Rabs (SumR n f - SumR n f') <= SumR n g * e.
Proof.
  intros n f f' g e. induction n as [|n IH]; intros H; [cbn [Sum rops zero]; rewrite Rminus_0_r, Rabs_R0; lra|]. cbn [Sum rops add] in *.
  match goal with |- Rabs (?a + ?b - (?c + ?d)) <= _ => replace (a + b - (c + d)) with ((a - c) + (b - d)) by ring end. eapply Rle_trans; [apply Rabs_triang|]. rewrite Rmult_plus_distr_r. apply Rplus_le_compat; [apply IH; intros i Hi; apply H; lia|apply H; lia].
Qed.
Lemma sums_up_to : forall n (f g : nat -> R) x, (forall i, (i < n)%nat -> Rabs (f i) <= g i * x) -> Rabs (SumR n f) <= SumR n g * x.
Proof.
  intros n f g x. induction n as [|n IH]; intros H; [cbn [Sum rops zero]; rewrite Rabs_R0; lra|]. cbn [Sum rops add] in *. eapply Rle_trans; [apply Rabs_triang|]. rewrite Rmult_plus_distr_r. apply Rplus_le_compat; [apply IH; intros i Hi; apply H; lia|apply H; lia].
Qed.
Lemma product_near : forall w a b e, Rabs (a - b) <= e -> Rabs (w * a - w * b) <= Rabs w * e.
Proof. intros w a b e H. rewrite <- Rmult_minus_distr_l, Rabs_mult. apply Rmult_le_compat_l; [apply Rabs_pos|exact H]. Qed.
Lemma product_up_to : forall w a x, Rabs a <= x -> Rabs (w * a) <= Rabs w * x.
Proof. intros w a x H. rewrite Rabs_mult. apply Rmult_le_compat_l; [apply Rabs_pos|exact H]. Qed.
Lemma near_size : forall a h x e, Rabs a <= x -> Rabs (h - a) <= e -> Rabs h <= x + e.
Proof. intros a h x e Ha Hh. replace h with (a + (h - a)) by ring. eapply Rle_trans; [apply Rabs_triang|]. lra. Qed.
Lemma exact_tensor : forall t r c k f, numbers t r c k f -> is_tensor (exact t) r c k f.
Proof. intros t r c k f (E1 & E2 & E3 & H). unfold is_tensor. cbn [exact rows cols chans get]. repeat split; auto. intros i j l Hi Hj Hl. destruct (H i j l Hi Hj Hl) as (x & Ex & _ & Vx). rewrite Ex. cbn [obind]. now rewrite Vx. Qed.


(** ** One layer *)
Lemma place_number : forall t r c k f i j l, numbers t r c k f -> (i < r)%nat -> (j < c)%nat -> (l < k)%nat -> at_place t i j l = f i j l.
Proof. intros t r c k f i j l (_ & _ & _ & H) Hi Hj Hl. unfold at_place. destruct (H i j l Hi Hj Hl) as (x & -> & _ & V). exact V. Qed.
(** A sum near the exact one, from the bounds of [sum_bounds]. *)
Lemma sum_near : forall m A i o h z z' s, sum_bounds m A i o -> 0 <= s <= A * (largest i + error i) -> Rabs (h - z') <= sum_error m s -> Rabs z <= A * largest i -> Rabs (z' - z) <= A * error i -> Rabs z <= largest o /\ Rabs (h - z) <= error o.
Proof.
  intros m A i o h z z' s (_ & B2 & B3) Hs H1 H2 H3. cbv zeta in B3. pose proof (sum_error_mono m _ _ Hs) as M. split; [lra|]. replace (h - z) with ((h - z') + (z' - z)) by ring. eapply Rle_trans; [apply Rabs_triang|]. lra.
Qed.
Lemma sum_in_bounds : forall m A i o s, sum_bounds m A i o -> 0 <= s <= A * (largest i + error i) -> in_bounds (s + sum_error m s).
Proof. intros m A i o s (B & _) Hs. cbv zeta in B. unfold in_bounds in *. eapply Rle_lt_trans; [|exact B]. apply sum_error_le; [lia|exact Hs]. Qed.

Lemma full_near : forall x y W r m n f i o, is_tensor x r m 1 f -> near i x y -> numbers_of W (m, n, 1%nat) ->
  (forall j, (j < n)%nat -> sum_bounds m (SumR m (fun a => Rabs (at_place W a j 0))) i o) ->
  exists t u, matrix_multiply rops x (exact W) = Ok t /\ matrix_multiply fops y W = Ok u /\ near o t u.
Proof.
  intros x y W r m n f i o Tx Nx [w Nw] B. destruct (near_split _ _ _ _ _ _ _ Tx Nx) as [Ny Hy]. set (h := fun i j l => number (element y i j l)) in *.
  assert (Ew : forall j, (j < n)%nat -> SumR m (fun a => Rabs (at_place W a j 0)) = SumR m (fun a => Rabs (w a j 0%nat))) by (intros j Hj; apply Algebra_Proofs.Sum_ext; intros a Ha; rewrite (place_number W m n 1 w) by (auto; lia); reflexivity).
  assert (Sz : forall a j, (a < r)%nat -> (j < n)%nat -> 0 <= sizes m (fun x => h a x 0%nat) (fun x => w x j 0%nat) <= SumR m (fun x => Rabs (w x j 0%nat)) * (largest i + error i)).
  { intros a j Ha Hj. split; [apply sizes_pos|]. eapply Rle_trans; [apply Rle_abs|]. unfold sizes. apply sums_up_to. intros x0 Hx. rewrite Rabs_Rabsolu, Rmult_comm. apply product_up_to. destruct (Hy a x0 0%nat Ha Hx ltac:(lia)) as [Q1 Q2]. exact (near_size _ _ _ _ Q1 Q2). }
  destruct (multiply_element rops x (exact W) r m n 1 f w Tx (exact_tensor _ _ _ _ _ Nw)) as (t & Et & Tt).
  destruct (float_multiply_is y W r m n 1 h w Ny Nw) as (u & h1 & Eu & Nu & H1).
  { intros a j l Ha Hj Hl. replace l with 0%nat by lia. apply (sum_in_bounds m (SumR m (fun x => Rabs (w x j 0%nat))) i o); [rewrite <- (Ew j Hj); now apply B|now apply Sz]. }
  exists t, u. split; [exact Et|]. split; [exact Eu|]. apply (near_join o t u _ _ _ _ _ Tt Nu). intros a j l Ha Hj Hl. replace l with 0%nat by lia. cbv beta.
  apply (sum_near m (SumR m (fun x => Rabs (w x j 0%nat))) i o _ _ (SumR m (fun x => h a x 0%nat * w x j 0%nat)) _ ltac:(rewrite <- (Ew j Hj); now apply B) (Sz a j Ha Hj) (H1 a j 0%nat Ha Hj ltac:(lia))); cbn [mul rops].
  - apply sums_up_to. intros x0 Hx. rewrite Rmult_comm. apply product_up_to. apply Hy; [assumption|assumption|lia].
  - apply sums_near. intros x0 Hx. rewrite (Rmult_comm (h a x0 0%nat)), (Rmult_comm (f a x0 0%nat)). apply product_near. apply Hy; [assumption|assumption|lia].
Qed.
Lemma bias_near : forall x y b r c k f i o, is_tensor x r c k f -> near i x y -> numbers_of b (r, c, k) ->
  (forall a j l, (a < r)%nat -> (j < c)%nat -> (l < k)%nat -> bias_bounds (at_place b a j l) i o) ->
  exists t u, add_view rops x (exact b) = Ok t /\ add_view fops y b = Ok u /\ near o t u.
Proof.
  intros x y b r c k f i o Tx Nx [w Nw] B. destruct (near_split _ _ _ _ _ _ _ Tx Nx) as [Ny Hy]. set (h := fun i j l => number (element y i j l)) in *. pose proof unit_pos as U.
  assert (Sz : forall a j l, (a < r)%nat -> (j < c)%nat -> (l < k)%nat -> Rabs (h a j l + w a j l) <= largest i + error i + Rabs (w a j l)).
  { intros a j l Ha Hj Hl. eapply Rle_trans; [apply Rabs_triang|]. apply Rplus_le_compat_r. destruct (Hy a j l Ha Hj Hl) as [Q1 Q2]. exact (near_size _ _ _ _ Q1 Q2). }
  assert (Bw : forall a j l, (a < r)%nat -> (j < c)%nat -> (l < k)%nat -> bias_bounds (w a j l) i o) by (intros a j l Ha Hj Hl; rewrite <- (place_number b r c k w) by assumption; now apply B).
  destruct (pointwise_element Rplus x (exact b) r c k f w Tx (exact_tensor _ _ _ _ _ Nw)) as (t & Et & Tt).
  destruct (float_add_is y b r c k h w Ny Nw) as (u & h1 & Eu & Nu & H1).
  { intros a j l Ha Hj Hl. destruct (Bw a j l Ha Hj Hl) as [B1 _]. unfold in_bounds in *. eapply Rle_lt_trans; [|exact B1]. apply Rmult_le_compat_l; [lra|now apply Sz]. }
  exists t, u. split; [exact Et|]. split; [exact Eu|]. apply (near_join o t u _ _ _ _ _ Tt Nu). intros a j l Ha Hj Hl. destruct (Bw a j l Ha Hj Hl) as (_ & B2 & B3). specialize (H1 a j l Ha Hj Hl). specialize (Sz a j l Ha Hj Hl). destruct (Hy a j l Ha Hj Hl) as [Q1 Q2]. change (Rabs (h a j l - f a j l) <= error i) in Q2. cbv beta zeta in *. split; [eapply Rle_trans; [apply Rabs_triang|]; lra|].
  assert (G : unit_error * Rabs (h a j l + w a j l) <= unit_error * (largest i + error i + Rabs (w a j l))) by (apply Rmult_le_compat_l; lra).
  replace (h1 a j l - (f a j l + w a j l)) with ((h1 a j l - (h a j l + w a j l)) + (h a j l - f a j l)) by ring. eapply Rle_trans; [apply Rabs_triang|]. lra.
Qed.
Lemma activation_near : forall lib a e x y r c k f i o, a <> ModelFile_Model.softmax -> faithful lib a e -> is_tensor x r c k f -> near i x y -> activation_bounds e i o ->
  exists t u, activate (activation_of a) x = Ok t /\ float_activate lib a y = Ok u /\ near o t u.
Proof.
  intros lib a e x y r c k f i o Hs Hf Tx Nx [BL BE]. destruct (near_split _ _ _ _ _ _ _ Tx Nx) as [Ny Hy]. set (h := fun i j l => number (element y i j l)) in *.
  assert (Ea : activation_of a <> Softmax) by (destruct a; cbn; congruence). assert (Fa : forall x, Activation_Props.textbook (activation_of a) x = formula a x) by (intros x0; destruct a; reflexivity).
  destruct (Activation_Props.activation_elementwise (activation_of a) x _ _ _ _ Ea Tx) as (t & Et & Tt).
  destruct (Hf y r c k h (largest i + error i) Ny) as (u & h1 & Eu & Nu & H1). { intros b j l Hb Hj Hl. destruct (Hy b j l Hb Hj Hl) as [Q1 Q2]. exact (near_size _ _ _ _ Q1 Q2). }
  exists t, u. split; [exact Et|]. split; [exact Eu|]. apply (near_join o t u _ _ _ _ _ Tt Nu). intros b j l Hb Hj Hl. cbv beta. rewrite Fa. destruct (Hy b j l Hb Hj Hl) as [Q1 Q2]. change (Rabs (h b j l - f b j l) <= error i) in Q2. specialize (H1 b j l Hb Hj Hl). split.
  - eapply Rle_trans; [apply formula_size|]. eapply Rle_trans; [|exact BL]. apply Rle_max_compat_l. exact Q1.
  - replace (h1 b j l - formula a (f b j l)) with ((h1 b j l - formula a (h b j l)) + (formula a (h b j l) - formula a (f b j l))) by ring. eapply Rle_trans; [apply Rabs_triang|]. pose proof (formula_near a (h b j l) (f b j l)) as L. lra.
Qed.

(** *** Dropout *)
Lemma tiny_below : tiny <= unit_error * unit_error.
Proof. Transparent tiny unit_error. unfold tiny, unit_error. rewrite <- Rinv_mult, <- pow_add. apply Rinv_le; [apply pow_lt; lra|]. apply Rle_pow; [lra|lia]. Opaque tiny unit_error. Qed.
Lemma scale_near : forall rate, is_number rate -> 0 <= number rate < 1 -> in_bounds (2 * / (1 - number rate)) ->
  let s := fdiv float1 (fsub float1 rate) in is_number s /\ Rabs (number s - / (1 - number rate)) <= 3 * unit_error * / (1 - number rate).
Proof.
  intros rate Nr [R0 R1] B s. pose proof unit_pos as U. pose proof unit_small as U2. pose proof tiny_pos as Y.
  destruct FloatAct_Proofs.float1_is as [N1 V1]. set (q := 1 - number rate) in *. assert (Q0 : 0 < q <= 1) by (unfold q; lra).
  pose proof (sum_rounded_error 1 (- number rate) ltac:(rewrite <- V1; apply val_format) ltac:(apply generic_format_opp; apply val_format)) as Er. replace (1 + - number rate) with q in Er by (unfold q; ring). rewrite (Rabs_pos_eq q) in Er by lra. apply Rabs_le_inv in Er.
  destruct (fsub_correct float1 rate N1 Nr) as [Vd Nd].
  { fold (number float1) (number rate). rewrite V1. fold q. rewrite Rabs_pos_eq by nra. rewrite max_is. apply Rle_lt_trans with 2; [nra|]. replace 2 with (2 ^ 1) at 1 by ring. apply Rlt_pow; [lra|lia]. }
  change (val float1) with (number float1) in Vd. change (val rate) with (number rate) in Vd. rewrite V1 in Vd. fold q in Vd. set (d := fsub float1 rate) in *. change (val d) with (number d) in Vd. set (z := number d) in *.
  assert (Z : (1 - unit_error) * q <= z <= (1 + unit_error) * q) by (rewrite Vd; lra). assert (Z0 : 0 < z) by nra.
  (* 1 / z is near 1 / q *)
  assert (I : Rabs (/ z - / q) <= unit_error * / z). { replace (/ z - / q) with ((q - z) * / q * / z) by (field; lra). rewrite Rabs_mult, (Rabs_pos_eq (/ z)) by (left; now apply Rinv_0_lt_compat). apply Rmult_le_compat_r; [left; now apply Rinv_0_lt_compat|]. rewrite Rabs_mult, (Rabs_pos_eq (/ q)) by (left; apply Rinv_0_lt_compat; lra). apply (Rmult_le_reg_r q); [lra|]. rewrite Rmult_assoc, Rinv_l by lra. rewrite Rmult_1_r. apply Rabs_le. lra. }
  remember (/ z) as a eqn:Ea. set (b := / q) in *. assert (A0 : 0 < a) by (rewrite Ea; apply Rinv_0_lt_compat; exact Z0). assert (B1 : 1 <= b) by (unfold b; rewrite <- Rinv_1; apply Rinv_le; lra).
  pose proof tiny_below as Y1.
  clearbody b. apply Rabs_le_inv in I. assert (Ab : a <= (1 + 2 * unit_error) * b) by nra. pose proof (rounded_error a) as E. rewrite (Rabs_pos_eq a) in E by lra.
  assert (Er2 : Rabs (rnd a - b) <= 3 * unit_error * b). { apply Rabs_le_inv in E. apply Rabs_le. assert (unit_error * unit_error <= unit_error * unit_error * b) by nra. assert (unit_error * a <= unit_error * ((1 + 2 * unit_error) * b)) by (apply Rmult_le_compat_l; lra). assert (unit_error * unit_error * b <= unit_error * b * / 1024) by nra. split; nra. }
  assert (Q : val float1 / val d = a) by (change (val d) with z; change (val float1) with (number float1); rewrite V1, Ea; unfold Rdiv; ring).
  destruct (fdiv_correct float1 d N1) as [Vs Ns].
  - change (val d) with z. lra.
  - rewrite Q, max_is. unfold in_bounds in B. eapply Rle_lt_trans; [|exact B]. replace (rnd a) with (b + (rnd a - b)) by ring. eapply Rle_trans; [apply Rabs_triang|]. rewrite (Rabs_pos_eq b) by lra. assert (3 * unit_error * b <= 1 * b) by (apply Rmult_le_compat_r; lra). lra.
  - split; [exact Ns|]. change (number s) with (val (fdiv float1 d)). rewrite Vs, Q. exact Er2.
Qed.
Lemma dropout_near : forall x y rate r c k f i o, is_tensor x r c k f -> near i x y -> is_number rate -> 0 <= number rate < 1 -> dropout_bounds (number rate) i o ->
  exists t u, dropout_predict (1 / (1 - number rate)) x = Ok t /\ float_dropout rate y = Ok u /\ near o t u.
Proof.
  intros x y rate r c k f i o Tx Nx Nr Hr (B1 & B2 & B3 & B4). cbv zeta in *. destruct (near_split _ _ _ _ _ _ _ Tx Nx) as [Ny Hy]. destruct (numbers_tensor _ _ _ _ _ Ny) as [Ty Ne]. pose proof unit_pos as U. pose proof unit_small as U2. pose proof tiny_pos as Y. assert (Y1 : tiny <= / 1024) by (pose proof tiny_below; assert (unit_error * unit_error <= unit_error * 1) by (apply Rmult_le_compat_l; lra); lra).
  destruct (scale_near rate Nr Hr B1) as [Ns Es]. cbv zeta in Ns, Es. set (s := fdiv float1 (fsub float1 rate)) in *. unfold Rdiv. rewrite Rmult_1_l. assert (S1 : 1 <= / (1 - number rate)) by (rewrite <- Rinv_1 at 1; apply Rinv_le; lra). set (g := / (1 - number rate)) in *. clearbody g.
  assert (Sx : forall z : R, is_tensor (uniform r c k z) r c k (fun _ _ _ => z)) by (intros z; repeat split; intros; reflexivity). assert (Sy : is_tensor (uniform r c k s) r c k (fun _ _ _ => s)) by (repeat split; intros; reflexivity).
  destruct (pointwise_element Rmult x (uniform r c k g) r c k f _ Tx (Sx g)) as (t & Et & Tt). destruct (pointwise_element fmul y (uniform r c k s) r c k _ _ Ty Sy) as (u & Eu & Tu).
  exists t, u. split; [unfold dropout_predict; destruct Tx as (-> & -> & -> & _); exact Et|]. split; [unfold float_dropout; cbv zeta; fold s; destruct Ty as (-> & -> & -> & _); exact Eu|].
  assert (Q : forall a j l, (a < r)%nat -> (j < c)%nat -> (l < k)%nat -> is_number (fmul (element y a j l) s) /\ Rabs (number (fmul (element y a j l) s) - f a j l * g) <= error o).
  { intros a j l Ha Hj Hl. destruct (Hy a j l Ha Hj Hl) as [Q1 Q2]. destruct (Ne a j l Ha Hj Hl) as [Nn _]. set (h := element y a j l) in *. pose proof (near_size _ _ _ _ Q1 Q2) as Q3. pose proof (Rabs_pos (number h)) as P. set (X := largest i + error i) in *.
    assert (Sg : 0 <= number s <= (1 + 3 * unit_error) * g) by (apply Rabs_le_inv in Es; assert (3 * unit_error * g <= 1 * g) by (apply Rmult_le_compat_r; lra); lra).
    assert (M : Rabs (number h * number s) <= (1 + 3 * unit_error) * (g * X)). { rewrite Rabs_mult, (Rabs_pos_eq (number s)) by lra. replace ((1 + 3 * unit_error) * (g * X)) with (X * ((1 + 3 * unit_error) * g)) by ring. apply Rmult_le_compat; lra. }
    pose proof (rounded_error (number h * number s)) as E. set (z := number h * number s) in *. assert (G0 : 0 <= g * X) by (apply Rmult_le_pos; lra). assert (UM : unit_error * Rabs z <= unit_error * ((1 + 3 * unit_error) * (g * X))) by (apply Rmult_le_compat_l; lra). assert (U3 : unit_error * (3 * unit_error * (g * X)) <= / 1024 * (unit_error * (3 * (g * X)))) by (replace (unit_error * (3 * unit_error * (g * X))) with (unit_error * (unit_error * (3 * (g * X)))) by ring; apply Rmult_le_compat_r; [apply Rmult_le_pos; lra|lra]).
    destruct (fmul_correct h s Nn Ns) as [V Nv].
    - change (val h * val s) with z. rewrite max_is. replace (rnd z) with (z + (rnd z - z)) by ring. eapply Rle_lt_trans; [apply Rabs_triang|]. unfold in_bounds in B2. assert (UG : unit_error * (g * X) <= / 1024 * (g * X)) by (apply Rmult_le_compat_r; lra).
      destruct (Rle_or_lt (g * X) 1) as [L|L]; [|lra]. apply Rle_lt_trans with (2 ^ 1); [lra|]. apply Rlt_pow; [lra|lia].
    - split; [exact Nv|]. change (number (fmul h s)) with (val (fmul h s)). rewrite V. change (val h * val s) with z.
      assert (D : Rabs (z - number h * g) <= 3 * unit_error * (g * X)). { unfold z. eapply Rle_trans; [apply product_near; exact Es|]. replace (3 * unit_error * (g * X)) with (X * (3 * unit_error * g)) by ring. apply Rmult_le_compat_r; [apply Rmult_le_pos; lra|exact Q3]. }
      assert (D2 : Rabs (number h * g - f a j l * g) <= g * error i). { rewrite (Rmult_comm (number h)), (Rmult_comm (f a j l)). eapply Rle_trans; [apply product_near; exact Q2|]. rewrite (Rabs_pos_eq g) by lra. lra. }
      replace (rnd z - f a j l * g) with ((rnd z - z) + ((z - number h * g) + (number h * g - f a j l * g))) by ring. eapply Rle_trans; [apply Rabs_triang|]. pose proof (Rabs_triang (z - number h * g) (number h * g - f a j l * g)). replace (5 * unit_error * (g * X)) with (5 * (unit_error * (g * X))) in B4 by ring. assert (0 <= unit_error * (g * X)) by (apply Rmult_le_pos; lra). lra. }
  apply (near_join o t u r c k _ (fun a j l => number (fmul (element y a j l) s)) Tt).
  - apply (tensor_numbers _ _ _ _ _ Tu). intros a j l Ha Hj Hl. now apply Q.
  - intros a j l Ha Hj Hl. split; [|now apply Q]. destruct (Hy a j l Ha Hj Hl) as [Q1 _]. rewrite Rmult_comm. eapply Rle_trans; [apply product_up_to; exact Q1|]. rewrite Rabs_pos_eq by lra. exact B3.
Qed.

(** *** Convolution *)
Lemma largest_of : forall n (h : nat -> R), (0 < n)%nat -> exists q, (q < n)%nat /\ forall i, (i < n)%nat -> h i <= h q.
Proof.
  intros n h H. induction n as [|n IH]; [lia|]. destruct n as [|n]; [exists 0%nat; split; [lia|]; intros i Hi; replace i with 0%nat by lia; lra|].
  destruct (IH ltac:(lia)) as (q & Hq & Q). destruct (Rle_or_lt (h (S n)) (h q)) as [L|L]; [exists q|exists (S n)]; (split; [lia|]); intros i Hi; (destruct (Nat.eq_dec i (S n)) as [->|Ne]; [lra|]); specialize (Q i ltac:(lia)); lra.
Qed.
Definition kernel_place (ws : list FT) (q i j l : nat) : R := match nth_error ws q with Some w => at_place w i j l | None => 0 end.
Lemma conv_near : forall x y ws r c k D Fl f i o, is_tensor x r c D f -> near i x y -> (1 <= D)%nat -> (1 <= Fl)%nat -> (k <= r)%nat -> (k <= c)%nat -> length ws = Fl -> Forall (fun w => numbers_of w (k, k, D)) ws ->
  (forall q, (q < Fl)%nat -> sum_bounds (D * (k * k)) (SumR D (fun l => SumR k (fun a => SumR k (fun b => Rabs (kernel_place ws q a b l))))) i o) ->
  exists t u, ConvLayer_Model.conv_forward rops (map exact ws) Fl D x = Ok t /\ ConvLayer_Model.conv_forward fops ws Fl D y = Ok u /\ near o t u.
Proof.
  intros x y ws r c k D Fl f i o Tx Nx HD HF Hr Hc L Fw B. destruct (near_split _ _ _ _ _ _ _ Tx Nx) as [Ny Hy]. destruct (numbers_tensor _ _ _ _ _ Ny) as [Ty Ne]. set (A := fun q => SumR D (fun l => SumR k (fun a => SumR k (fun b => Rabs (kernel_place ws q a b l))))) in *.
  assert (Hw : forall q, (q < Fl)%nat -> exists w, nth_error ws q = Some w /\ numbers_of w (k, k, D)). { intros q Hq. destruct (nth_error ws q) as [w|] eqn:E; [|apply nth_error_None in E; lia]. exists w. split; [reflexivity|]. rewrite Forall_forall in Fw. apply Fw. now apply nth_error_In in E. }
  set (g := fun q => element (nth q ws y)).
  assert (Wt : forall q, (q < Fl)%nat -> is_tensor (nth q ws y) k k D (g q) /\ numbers (nth q ws y) k k D (fun a b l => number (g q a b l)) /\ forall a b l, (a < k)%nat -> (b < k)%nat -> (l < D)%nat -> is_number (g q a b l) /\ kernel_place ws q a b l = number (g q a b l)).
  { intros q Hq. destruct (Hw q Hq) as (w & Ew & [h Nw]). unfold g. rewrite (nth_error_nth ws q y Ew). destruct (numbers_tensor _ _ _ _ _ Nw) as [Tw Vw]. split; [exact Tw|]. split; [apply (tensor_numbers _ _ _ _ _ Tw); intros a b l Ha Hb Hl; now apply Vw|]. intros a b l Ha Hb Hl. split; [now apply Vw|]. unfold kernel_place. rewrite Ew. unfold at_place, element. destruct Tw as (_ & _ & _ & Tw). rewrite (Tw a b l Ha Hb Hl). unfold element. now rewrite Tw. }
  assert (Ea : forall q (h : nat -> nat -> nat -> R), (q < Fl)%nat -> A q = SumR D (fun l => SumR k (fun a => SumR k (fun b => Rabs (number (g q a b l)))))).
  { intros q _ Hq. unfold A. apply Algebra_Proofs.Sum_ext. intros l Hl. apply Algebra_Proofs.Sum_ext. intros a Ha. apply Algebra_Proofs.Sum_ext. intros b Hb. f_equal. now apply (Wt q Hq). }
  destruct (largest_of Fl (fun q => A q * (largest i + error i)) ltac:(lia)) as (q0 & Hq0 & Mx). set (most := A q0 * (largest i + error i)) in *.
  assert (Sz : forall q a b, (q < Fl)%nat -> (a < r + 1 - k)%nat -> (b < c + 1 - k)%nat -> 0 <= SumR D (FloatConv_Proofs.size_part k (element y) (g q) a b) <= A q * (largest i + error i)).
  { intros q a b Hq Ha Hb. split; [apply FloatConv_Proofs.sum_pos; intros l _; apply FloatConv_Proofs.size_part_pos|]. rewrite (Ea q (fun _ _ _ => 0) Hq). eapply Rle_trans; [apply Rle_abs|]. apply sums_up_to. intros l Hl. unfold FloatConv_Proofs.size_part, Conv_Spec.correlation. apply sums_up_to. intros a' Ha'. apply sums_up_to. intros b' Hb'. cbn [mul rops]. rewrite <- (Rabs_Rabsolu (number (g q a' b' l))) at 2. apply product_up_to. rewrite Rabs_Rabsolu. destruct (Hy (a + a')%nat (b + b')%nat l ltac:(lia) ltac:(lia) Hl) as [Q1 Q2]. exact (near_size _ _ _ _ Q1 Q2). }
  assert (Hb : in_bounds (most + sum_error (D * (k * k)) most)) by (destruct (B q0 Hq0) as [B1 _]; exact B1).
  destruct (FloatConv_Proofs.conv_summed most (D * (k * k)) Hb y r c k D (element y) Ty (fun a b l Ha Hb Hl => proj1 (Ne a b l Ha Hb Hl)) Hr Hc HD ltac:(lia) ws Fl g HF L (fun q Hq => proj1 (Wt q Hq))) as (u & Eu & Tu).
  { intros q a b l Hq Ha Hb' Hl. now apply (Wt q Hq). }
  { intros q a b Hq Ha Hb'. eapply Rle_trans; [apply Sz; assumption|now apply Mx]. }
  destruct (Conv_Proofs.conv_forward_element rops Ropp Layer_Proofs.rring (map exact ws) x r c k D Fl f (fun q a b l => number (g q a b l)) HD HF Hr Hc Tx) as (t & Et & Tt).
  { now rewrite map_length. }
  { intros q Hq. destruct (Hw q Hq) as (w & Ew & _). rewrite (nth_error_nth (map exact ws) q x (map_nth_error exact q ws Ew)). destruct (Wt q Hq) as (_ & Nw & _). rewrite (nth_error_nth ws q y Ew) in Nw. now apply exact_tensor. }
  exists t, u. split; [exact Et|]. split; [exact Eu|].
  destruct Tu as (U1 & U2 & U3 & Tu). assert (Nu : numbers u (r + 1 - k) (c + 1 - k) Fl (fun a b l => number (element u a b l))).
  { unfold numbers. split; [exact U1|]. split; [exact U2|]. split; [exact U3|]. intros a b l Ha Hb' Hl. destruct (Tu a b l Ha Hb' Hl) as (v & Ev & Nv & _). exists v. split; [exact Ev|]. split; [exact Nv|]. unfold element. now rewrite Ev. }
  apply (near_join o t u _ _ _ _ _ Tt Nu). intros a b q Ha Hb' Hq. destruct (Tu a b q Ha Hb' Hq) as (v & Ev & Sv). apply FloatConv_Proofs.summed_error in Sv. unfold element. rewrite Ev.
  apply (sum_near (D * (k * k)) (A q) i o _ _ _ _ (B q Hq) (Sz q a b Hq Ha Hb') Sv); rewrite (Ea q (fun _ _ _ => 0) Hq).
  - apply sums_up_to. intros l Hl. unfold Conv_Spec.correlation. apply sums_up_to. intros a' Ha'. apply sums_up_to. intros b' Hb2. cbn [mul rops]. apply product_up_to. apply Hy; lia.
  - apply sums_near. intros l Hl. unfold FloatConv_Proofs.exact_part, Conv_Spec.correlation. apply sums_near. intros a' Ha'. apply sums_near. intros b' Hb2. cbn [mul rops]. apply product_near. apply Hy; lia.
Qed.
