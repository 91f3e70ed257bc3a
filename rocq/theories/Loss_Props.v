(** C48: the loss functions. *)
From Coq Require Import List Arith Bool Lia Reals Lra.
From Coquelicot Require Import Coquelicot.
From Verif Require Import F32_Model Outcome Tensor_Model Tensor_Spec Algebra_Proofs Scaling_Spec Scaling_Proofs Reduce_Spec Reduce_Proofs
  Activation_Model Activation_Proofs Loss_Model Loss_Spec Loss_Proofs.
Import ListNotations.
Local Open Scope R_scope.

Lemma is_tensor_values : forall (t : tensor R) n m K f g, is_tensor t n m K f -> is_tensor t n m K g -> everywhere n m K (fun r c k => f r c k = g r c k).
Proof. intros t n m K f g (_ & _ & _ & H) (_ & _ & _ & G) r c k Hr Hc Hk. specialize (H r c k Hr Hc Hk). specialize (G r c k Hr Hc Hk). congruence. Qed.
Lemma step_tensor : forall L truth prediction n m K g eta next d delta, descent_step L truth prediction n m K g eta next ->
  derivative_of L truth prediction = Ok d -> is_tensor d n m K delta -> is_tensor next n m K (fun r c k => g r c k - eta * delta r c k).
Proof.
  intros L truth prediction n m K g eta next d delta (d' & delta' & E' & H' & Hn) E H. assert (d' = d) by congruence. subst d'.
  eapply is_tensor_ext; [exact Hn|]. intros r c k Hr Hc Hk. cbv beta. now rewrite (is_tensor_values _ _ _ _ _ _ H' H r c k Hr Hc Hk).
Qed.
Lemma average_le : forall l l', length l = length l' -> sum l <= sum l' -> average l <= average l'.
Proof.
  intros l l' E H. unfold average. rewrite E. destruct (Nat.eq_dec (length l') 0) as [Z|Z].
  - rewrite Z. destruct l' as [|]; [|discriminate]. destruct l; [|discriminate]. right. reflexivity.
  - apply Rmult_le_compat_r; [left; apply Rinv_0_lt_compat, lt_0_INR; lia|exact H].
Qed.
Lemma average_lt : forall l l', length l = length l' -> sum l < sum l' -> average l < average l'.
Proof.
  intros l l' E H. unfold average. rewrite E. destruct l' as [|x l'].
  - destruct l; [|discriminate]. lra.
  - apply Rmult_lt_compat_r; [apply Rinv_0_lt_compat, lt_0_INR; cbn [length]; lia|exact H].
Qed.
Lemma average_nonneg : forall n m K f, everywhere n m K (fun r c k => 0 <= f r c k) -> 0 <= average (elements n m K f).
Proof.
  intros n m K f H. pose proof (sum_elements_nonneg n m K f H) as P. unfold average. destruct (Nat.eq_dec (length (elements n m K f)) 0) as [E|E].
  - destruct (elements n m K f); [|discriminate]. unfold sum. cbn. unfold Rdiv. rewrite Rmult_0_l. lra.
  - apply Rmult_le_pos; [exact P|]. left. apply Rinv_0_lt_compat, lt_0_INR. lia.
Qed.
Lemma average_zero : forall n m K f, (0 < n * m * K)%nat -> everywhere n m K (fun r c k => 0 <= f r c k) ->
  (average (elements n m K f) = 0 <-> everywhere n m K (fun r c k => f r c k = 0)).
Proof.
  intros n m K f Hpos H. unfold everywhere at 1. rewrite <- (sum_elements_zero n m K f H). unfold average. rewrite elements_length.
  assert (Hn : 0 < INR (n * m * K)) by (now apply lt_0_INR). split; intros E.
  - apply (Rmult_eq_reg_r (/ INR (n * m * K))); [|apply Rinv_neq_0_compat; lra]. rewrite Rmult_0_l. exact E.
  - rewrite E. unfold Rdiv. apply Rmult_0_l.
Qed.
Lemma average_partial : forall n m K r0 c0 k0 g (l : nat -> nat -> nat -> R -> R) d, (r0 < n)%nat -> (c0 < m)%nat -> (k0 < K)%nat ->
  is_derive (l r0 c0 k0) (g r0 c0 k0) d ->
  derivable_pt_lim (fun x => average (elements n m K (fun r c k => l r c k (at_position g r0 c0 k0 x r c k)))) (g r0 c0 k0) (d / INR (n * m * K)).
Proof.
  intros n m K r0 c0 k0 g l d Hr Hc Hk Hd. apply is_derive_Reals.
  apply (is_derive_ext (fun x => scal (/ INR (n * m * K)) (Scaling_Spec.sum (elements n m K (fun r c k => l r c k (at_position g r0 c0 k0 x r c k)))))).
  { intros x. unfold average. rewrite elements_length. unfold scal. cbn. unfold mult. cbn. unfold Rdiv. ring. }
  replace (d / INR (n * m * K)) with (scal (/ INR (n * m * K)) d) by (unfold scal; cbn; unfold mult; cbn; unfold Rdiv; ring).
  apply (is_derive_scal (fun x => Scaling_Spec.sum (elements n m K (fun r c k => l r c k (at_position g r0 c0 k0 x r c k)))) _ (/ INR (n * m * K))).
  now apply sum_partial.
Qed.

(** ** Mean squared error *)
Theorem mse_measures_the_error : forall truth prediction n m K f g, is_tensor truth n m K f -> is_tensor prediction n m K g -> (0 < n * m * K)%nat ->
  exists v, loss_of mse truth prediction = Ok v /\ v = average (elements n m K (fun r c k => (g r c k - f r c k) ^ 2)) /\
    0 <= v /\ (v = 0 <-> everywhere n m K (fun r c k => g r c k = f r c k)).
Proof.
  intros truth prediction n m K f g Ht Hp Hpos. destruct (mse_elements _ _ n m K f g Ht Hp) as [E _]. eexists. split; [exact E|]. split; [reflexivity|].
  assert (P : everywhere n m K (fun r c k => 0 <= (g r c k - f r c k) ^ 2)) by (intros r c k _ _ _; apply pow2_ge_0).
  split; [now apply average_nonneg|]. rewrite (average_zero _ _ _ _ Hpos P). unfold everywhere. split; intros H r c k Hr Hc Hk; specialize (H r c k Hr Hc Hk).
  - assert (g r c k - f r c k = 0) by nra. lra.
  - rewrite H. ring.
Qed.
(** The reported derivative is the gradient of the loss, times the number of elements. *)
Theorem mse_gradient : forall truth prediction n m K f g, is_tensor truth n m K f -> is_tensor prediction n m K g -> exists d delta,
  derivative_of mse truth prediction = Ok d /\ is_tensor d n m K delta /\
  everywhere n m K (fun r c k => partial_derivative (loss_of mse truth) n m K g r c k (delta r c k / INR (n * m * K))).
Proof.
  intros truth prediction n m K f g Ht Hp. destruct (mse_elements _ _ n m K f g Ht Hp) as (_ & d & E & Hd). exists d. eexists.
  split; [exact E|]. split; [exact Hd|]. intros r c k Hr Hc Hk.
  exists (fun x => average (elements n m K (fun r' c' k' => (at_position g r c k x r' c' k' - f r' c' k') ^ 2))). split.
  - intros x p Hx. now destruct (mse_elements _ _ n m K f _ Ht Hx) as [E' _].
  - apply (average_partial n m K r c k g (fun r c k x => (x - f r c k) ^ 2)); auto. auto_derive; [trivial|]. ring.
Qed.
(** A step of any size up to 1 against it does not increase the loss, and decreases it unless the
    prediction is right already (or the step is 0 or 1 long). *)
Theorem mse_descends : forall truth prediction n m K f g eta next, is_tensor truth n m K f -> is_tensor prediction n m K g ->
  0 <= eta <= 1 -> descent_step mse truth prediction n m K g eta next ->
  exists v v', loss_of mse truth prediction = Ok v /\ loss_of mse truth next = Ok v' /\ v' <= v /\
    (0 < eta < 1 -> somewhere n m K (fun r c k => g r c k <> f r c k) -> v' < v).
Proof.
  intros truth prediction n m K f g eta next Ht Hp He Hs. destruct (mse_elements _ _ n m K f g Ht Hp) as (E & d & Ed & Hd).
  pose proof (step_tensor _ _ _ _ _ _ _ _ _ _ _ Hs Ed Hd) as Hn. destruct (mse_elements _ _ n m K f _ Ht Hn) as (E' & _).
  do 2 eexists. split; [exact E|]. split; [exact E'|].
  assert (L : everywhere n m K (fun r c k => (g r c k - eta * (2 * (g r c k - f r c k)) - f r c k) ^ 2 <= (g r c k - f r c k) ^ 2)).
  { intros r c k _ _ _. set (x := g r c k). set (y := f r c k). clearbody x y. clear - He.
    replace ((x - eta * (2 * (x - y)) - y) ^ 2) with ((x - y) ^ 2 - 4 * (eta * (1 - eta) * (x - y) ^ 2)) by ring.
    pose proof (Rmult_le_pos (eta * (1 - eta)) ((x - y) ^ 2) (Rmult_le_pos eta (1 - eta) ltac:(lra) ltac:(lra)) (pow2_ge_0 _)). lra. }
  split.
  - apply average_le; [now rewrite !elements_length|]. now apply sum_elements_le.
  - intros He' (r & c & k & Hr & Hc & Hk & Hne). apply average_lt; [now rewrite !elements_length|]. apply sum_elements_lt; [exact L|].
    exists r, c, k. repeat split; auto. set (x := g r c k) in *. set (y := f r c k) in *. clearbody x y. clear - He' Hne.
    replace ((x - eta * (2 * (x - y)) - y) ^ 2) with ((x - y) ^ 2 - 4 * (eta * (1 - eta) * (x - y) ^ 2)) by ring.
    assert (0 < (x - y) ^ 2) by (apply pow2_gt_0; lra).
    pose proof (Rmult_lt_0_compat (eta * (1 - eta)) ((x - y) ^ 2) (Rmult_lt_0_compat eta (1 - eta) ltac:(lra) ltac:(lra)) H). lra.
Qed.

(** ** Mean absolute error *)
(** Partial, C48: its gradient is refuted. *)
Theorem mae_measures_the_error_partial : forall truth prediction n m K f g, is_tensor truth n m K f -> is_tensor prediction n m K g -> (0 < n * m * K)%nat ->
  exists v, loss_of mae truth prediction = Ok v /\ v = average (elements n m K (fun r c k => Rabs (g r c k - f r c k))) /\
    0 <= v /\ (v = 0 <-> everywhere n m K (fun r c k => g r c k = f r c k)).
Proof.
  intros truth prediction n m K f g Ht Hp Hpos. destruct (mae_elements _ _ n m K f g Ht Hp) as [E _]. eexists. split; [exact E|]. split; [reflexivity|].
  assert (P : everywhere n m K (fun r c k => 0 <= Rabs (g r c k - f r c k))) by (intros r c k _ _ _; apply Rabs_pos).
  split; [now apply average_nonneg|]. rewrite (average_zero _ _ _ _ Hpos P). unfold everywhere. split; intros H r c k Hr Hc Hk; specialize (H r c k Hr Hc Hk).
  - apply Rabs_eq_0 in H. lra.
  - rewrite H. replace (f r c k - f r c k) with 0 by ring. apply Rabs_R0.
Qed.
(** The reported derivative has the wrong sign: every step against it, of whatever size, increases
    the loss of every prediction that is not right already. *)
Theorem mae_descends_refuted : forall truth prediction n m K f g eta next, is_tensor truth n m K f -> is_tensor prediction n m K g ->
  0 < eta -> somewhere n m K (fun r c k => g r c k <> f r c k) -> descent_step mae truth prediction n m K g eta next ->
  exists v v', loss_of mae truth prediction = Ok v /\ loss_of mae truth next = Ok v' /\ v < v'.
Proof.
  intros truth prediction n m K f g eta next Ht Hp He (r & c & k & Hr & Hc & Hk & Hne) Hs. destruct (mae_elements _ _ n m K f g Ht Hp) as (E & d & Ed & Hd).
  pose proof (step_tensor _ _ _ _ _ _ _ _ _ _ _ Hs Ed Hd) as Hn. destruct (mae_elements _ _ n m K f _ Ht Hn) as (E' & _).
  do 2 eexists. split; [exact E|]. split; [exact E'|]. apply average_lt; [now rewrite !elements_length|].
  assert (X : forall x y, Rabs (x - eta * - (x - y) - y) = (1 + eta) * Rabs (x - y)).
  { intros x y. replace (x - eta * - (x - y) - y) with ((1 + eta) * (x - y)) by ring. rewrite Rabs_mult, (Rabs_pos_eq (1 + eta)) by lra. reflexivity. }
  apply sum_elements_lt.
  - intros r' c' k' _ _ _. rewrite X. pose proof (Rabs_pos (g r' c' k' - f r' c' k')). nra.
  - exists r, c, k. repeat split; auto. rewrite X. assert (0 < Rabs (g r c k - f r c k)) by (apply Rabs_pos_lt; lra). nra.
Qed.
(** Where it exists the derivative of the loss is the sign of the difference; the reported one is
    minus the difference. *)
Theorem mae_gradient_refuted : forall truth prediction n m K f g, is_tensor truth n m K f -> is_tensor prediction n m K g -> exists d delta,
  derivative_of mae truth prediction = Ok d /\ is_tensor d n m K delta /\
  everywhere n m K (fun r c k => g r c k <> f r c k -> exists true_derivative,
    partial_derivative (loss_of mae truth) n m K g r c k true_derivative /\ true_derivative * delta r c k < 0).
Proof.
  intros truth prediction n m K f g Ht Hp. destruct (mae_elements _ _ n m K f g Ht Hp) as (_ & d & E & Hd). exists d. eexists.
  split; [exact E|]. split; [exact Hd|]. intros r c k Hr Hc Hk Hne. exists (sign (g r c k - f r c k) / INR (n * m * K)). split.
  - exists (fun x => average (elements n m K (fun r' c' k' => Rabs (at_position g r c k x r' c' k' - f r' c' k')))). split.
    + intros x p Hx. now destruct (mae_elements _ _ n m K f _ Ht Hx) as [E' _].
    + apply (average_partial n m K r c k g (fun r c k x => Rabs (x - f r c k))); auto. auto_derive; [lra|]. rewrite ?Rmult_1_l; reflexivity.
  - assert (Hpos : 0 < INR (n * m * K)) by (apply lt_0_INR; apply Nat.mul_pos_pos; [apply Nat.mul_pos_pos|]; lia).
    apply Rinv_0_lt_compat in Hpos. unfold Rdiv. destruct (Rtotal_order (g r c k) (f r c k)) as [L|[L|L]]; [|contradiction|].
    + rewrite sign_eq_m1 by lra. nra.
    + rewrite sign_eq_1 by lra. nra.
Qed.

(** ** Smooth mean absolute error *)
(** The code selects between a smooth part (half the square) where the difference is below 1 and a
    linear part elsewhere; the selecting view returns the smooth part always. *)
(** Partial, C48: it is not the documented loss above 1, which is refuted. *)
Theorem smae_measures_the_error_partial : forall truth prediction n m K f g, is_tensor truth n m K f -> is_tensor prediction n m K g -> (0 < n * m * K)%nat ->
  exists v, loss_of smae truth prediction = Ok v /\ v = average (elements n m K (fun r c k => / 2 * (g r c k - f r c k) ^ 2)) /\
    0 <= v /\ (v = 0 <-> everywhere n m K (fun r c k => g r c k = f r c k)).
Proof.
  intros truth prediction n m K f g Ht Hp Hpos. destruct (smae_elements _ _ n m K f g Ht Hp) as [E _]. eexists. split; [exact E|]. split; [reflexivity|].
  assert (P : everywhere n m K (fun r c k => 0 <= / 2 * (g r c k - f r c k) ^ 2)) by (intros r c k _ _ _; pose proof (pow2_ge_0 (g r c k - f r c k)); lra).
  split; [now apply average_nonneg|]. rewrite (average_zero _ _ _ _ Hpos P). unfold everywhere. split; intros H r c k Hr Hc Hk; specialize (H r c k Hr Hc Hk).
  - assert (g r c k - f r c k = 0) by nra. lra.
  - rewrite H. ring.
Qed.
(** The documented loss: half the square below 1, linear above. *)
Definition huber (x : R) : R := if Rlt_dec (Rabs x) 1 then / 2 * x ^ 2 else Rabs x - / 2.
Theorem smae_is_smooth_absolute_error_refuted : forall truth prediction n m K f g, is_tensor truth n m K f -> is_tensor prediction n m K g ->
  somewhere n m K (fun r c k => 1 < Rabs (g r c k - f r c k)) ->
  exists v, loss_of smae truth prediction = Ok v /\ average (elements n m K (fun r c k => huber (g r c k - f r c k))) < v.
Proof.
  intros truth prediction n m K f g Ht Hp (r & c & k & Hr & Hc & Hk & Hlt). destruct (smae_elements _ _ n m K f g Ht Hp) as [E _].
  eexists. split; [exact E|]. apply average_lt; [now rewrite !elements_length|]. apply sum_elements_lt.
  - intros r' c' k' _ _ _. unfold huber. destruct (Rlt_dec _ 1); [lra|]. set (x := g r' c' k' - f r' c' k'). clearbody x.
    rewrite <- (pow2_abs x). pose proof (pow2_ge_0 (Rabs x - 1)). lra.
  - exists r, c, k. repeat split; auto. unfold huber. destruct (Rlt_dec _ 1); [lra|]. set (x := g r c k - f r c k) in *. clearbody x.
    rewrite <- (pow2_abs x). pose proof (pow2_gt_0 (Rabs x - 1) ltac:(lra)). lra.
Qed.
Theorem smae_gradient : forall truth prediction n m K f g, is_tensor truth n m K f -> is_tensor prediction n m K g -> exists d delta,
  derivative_of smae truth prediction = Ok d /\ is_tensor d n m K delta /\
  everywhere n m K (fun r c k => partial_derivative (loss_of smae truth) n m K g r c k (delta r c k / INR (n * m * K))).
Proof.
  intros truth prediction n m K f g Ht Hp. destruct (smae_elements _ _ n m K f g Ht Hp) as (_ & d & E & Hd). exists d. eexists.
  split; [exact E|]. split; [exact Hd|]. intros r c k Hr Hc Hk.
  exists (fun x => average (elements n m K (fun r' c' k' => / 2 * (at_position g r c k x r' c' k' - f r' c' k') ^ 2))). split.
  - intros x p Hx. now destruct (smae_elements _ _ n m K f _ Ht Hx) as [E' _].
  - apply (average_partial n m K r c k g (fun r c k x => / 2 * (x - f r c k) ^ 2)); auto. auto_derive; [trivial|]. field.
Qed.
Theorem smae_descends : forall truth prediction n m K f g eta next, is_tensor truth n m K f -> is_tensor prediction n m K g ->
  0 <= eta <= 2 -> descent_step smae truth prediction n m K g eta next ->
  exists v v', loss_of smae truth prediction = Ok v /\ loss_of smae truth next = Ok v' /\ v' <= v /\
    (0 < eta < 2 -> somewhere n m K (fun r c k => g r c k <> f r c k) -> v' < v).
Proof.
  intros truth prediction n m K f g eta next Ht Hp He Hs. destruct (smae_elements _ _ n m K f g Ht Hp) as (E & d & Ed & Hd).
  pose proof (step_tensor _ _ _ _ _ _ _ _ _ _ _ Hs Ed Hd) as Hn. destruct (smae_elements _ _ n m K f _ Ht Hn) as (E' & _).
  do 2 eexists. split; [exact E|]. split; [exact E'|].
  assert (X : forall x y, / 2 * (x - eta * (x - y) - y) ^ 2 = / 2 * (x - y) ^ 2 - / 2 * (eta * (2 - eta) * (x - y) ^ 2)) by (intros; ring).
  assert (L : everywhere n m K (fun r c k => / 2 * (g r c k - eta * (g r c k - f r c k) - f r c k) ^ 2 <= / 2 * (g r c k - f r c k) ^ 2)).
  { intros r c k _ _ _. rewrite X. set (z := (g r c k - f r c k) ^ 2). assert (0 <= z) by apply pow2_ge_0.
    pose proof (Rmult_le_pos (eta * (2 - eta)) z (Rmult_le_pos eta (2 - eta) ltac:(lra) ltac:(lra)) H). lra. }
  split.
  - apply average_le; [now rewrite !elements_length|]. now apply sum_elements_le.
  - intros He' (r & c & k & Hr & Hc & Hk & Hne). apply average_lt; [now rewrite !elements_length|]. apply sum_elements_lt; [exact L|].
    exists r, c, k. repeat split; auto. rewrite X. assert (H : 0 < (g r c k - f r c k) ^ 2) by (apply pow2_gt_0; lra).
    pose proof (Rmult_lt_0_compat (eta * (2 - eta)) _ (Rmult_lt_0_compat eta (2 - eta) ltac:(lra) ltac:(lra)) H). lra.
Qed.

(** ** Binary cross entropy *)
Definition binary (n m K : nat) (f : nat -> nat -> nat -> R) : Prop := everywhere n m K (fun r c k => f r c k = 0 \/ f r c k = 1).

(** For truths between 0 and 1 the loss is never negative; for true/false answers it is 0 for the right
    answer, and for no other prediction between 0 and 1. *)
Theorem bce_measures_the_error : forall truth prediction n m K f g, is_tensor truth n m K f -> is_tensor prediction n m K g ->
  everywhere n m K (fun r c k => 0 <= f r c k <= 1) ->
  exists v, loss_of bce truth prediction = Ok v /\ 0 <= v /\
    (binary n m K f -> everywhere n m K (fun r c k => 0 <= g r c k <= 1) -> (v = 0 <-> everywhere n m K (fun r c k => g r c k = f r c k))).
Proof.
  intros truth prediction n m K f g Ht Hp H01. destruct (bce_elements _ _ n m K f g Ht Hp) as [E _]. eexists. split; [exact E|].
  assert (P : everywhere n m K (fun r c k => 0 <= - (f r c k * safe_ln (g r c k) + (1 - f r c k) * safe_ln (1 - g r c k)))).
  { intros r c k Hr Hc Hk. specialize (H01 r c k Hr Hc Hk). pose proof (safe_ln_neg (g r c k)). pose proof (safe_ln_neg (1 - g r c k)). nra. }
  split; [now apply sum_elements_nonneg|]. intros Hb Hg. rewrite (sum_elements_zero n m K _ P).
  assert (Z : forall x, 0 <= x <= 1 -> safe_ln x = 0 -> x = 1).
  { intros x Hx H0. destruct (Req_dec x 1) as [G|G]; [exact G|exfalso]. pose proof epsilon_bounds. destruct (Rle_dec x epsilon) as [L|L].
    - rewrite safe_ln_low in H0 by exact L. pose proof (ln_increasing epsilon 1 ltac:(lra) ltac:(lra)). rewrite ln_1 in *. lra.
    - rewrite safe_ln_inside in H0 by lra. pose proof (ln_increasing x 1 ltac:(lra) ltac:(lra)). rewrite ln_1 in *. lra. }
  unfold everywhere. split; intros H r c k Hr Hc Hk; specialize (H r c k Hr Hc Hk); specialize (Hb r c k Hr Hc Hk); specialize (Hg r c k Hr Hc Hk).
  - destruct Hb as [Hb|Hb]; rewrite Hb in *.
    + assert (1 - g r c k = 1) by (apply Z; lra). lra.
    + apply Z; lra.
  - rewrite H. destruct Hb as [Hb|Hb]; rewrite Hb.
    + rewrite (safe_ln_one (1 - 0)) by lra. ring.
    + rewrite (safe_ln_one 1) by lra. ring.
Qed.
(** Between the clamping bounds the reported derivative is the gradient of the loss, for every truth. *)
Theorem bce_gradient : forall truth prediction n m K f g, is_tensor truth n m K f -> is_tensor prediction n m K g -> exists d delta,
  derivative_of bce truth prediction = Ok d /\ is_tensor d n m K delta /\
  everywhere n m K (fun r c k => epsilon < g r c k < 1 - epsilon -> partial_derivative (loss_of bce truth) n m K g r c k (delta r c k)).
Proof.
  intros truth prediction n m K f g Ht Hp. destruct (bce_elements _ _ n m K f g Ht Hp) as (_ & d & E & Hd). exists d. eexists.
  split; [exact E|]. split; [exact Hd|]. intros r c k Hr Hc Hk Hg. pose proof epsilon_bounds as Heps.
  exists (fun x => Scaling_Spec.sum (elements n m K (fun r' c' k' => - (f r' c' k' * safe_ln (at_position g r c k x r' c' k') +
    (1 - f r' c' k') * safe_ln (1 - at_position g r c k x r' c' k'))))). split.
  - intros x p Hx. now destruct (bce_elements _ _ n m K f _ Ht Hx) as [E' _].
  - apply is_derive_Reals. apply (sum_partial n m K r c k g (fun r c k x => - (f r c k * safe_ln x + (1 - f r c k) * safe_ln (1 - x)))); auto.
    set (x := g r c k) in *. set (y := f r c k). clearbody x y.
    apply (is_derive_ext_loc (fun x => - (y * ln x + (1 - y) * ln (1 - x)))).
    + assert (Hr0 : 0 < Rmin (x - epsilon) (1 - epsilon - x)) by (apply Rmin_glb_lt; lra).
      exists (mkposreal _ Hr0). intros z Hz. unfold ball in Hz. cbn in Hz. unfold AbsRing_ball, abs, minus, plus, opp in Hz. cbn in Hz.
      apply Rabs_lt_between in Hz. pose proof (Rmin_l (x - epsilon) (1 - epsilon - x)). pose proof (Rmin_r (x - epsilon) (1 - epsilon - x)).
      rewrite !safe_ln_inside by lra. reflexivity.
    + unfold guard. destruct (Req_EM_T x 0); [lra|]. destruct (Req_EM_T (1 - x) 0); [lra|]. auto_derive; [lra|]. field. lra.
Qed.
(** For true/false answers, whatever the prediction and however long the step, a step against the
    reported derivative does not increase the loss; it decreases it if some prediction is between the
    bounds and not right. *)
Theorem bce_descends : forall truth prediction n m K f g eta next, is_tensor truth n m K f -> is_tensor prediction n m K g ->
  binary n m K f -> 0 <= eta -> descent_step bce truth prediction n m K g eta next ->
  exists v v', loss_of bce truth prediction = Ok v /\ loss_of bce truth next = Ok v' /\ v' <= v /\
    (0 < eta -> somewhere n m K (fun r c k => epsilon <= g r c k <= 1 - epsilon) -> v' < v).
Proof.
  intros truth prediction n m K f g eta next Ht Hp Hb He Hs. destruct (bce_elements _ _ n m K f g Ht Hp) as (E & d & Ed & Hd).
  pose proof (step_tensor _ _ _ _ _ _ _ _ _ _ _ Hs Ed Hd) as Hn. destruct (bce_elements _ _ n m K f _ Ht Hn) as (E' & _).
  do 2 eexists. split; [exact E|]. split; [exact E'|]. pose proof epsilon_bounds as Heps.
  (* moving towards 1 by eta over the guarded distance *)
  assert (M : forall p, safe_ln p <= safe_ln (p + eta / guard p)).
  { intros p. unfold guard. destruct (Req_EM_T p 0) as [->|Hp0].
    - apply safe_ln_mono. pose proof (Rinv_0_lt_compat epsilon ltac:(lra)). unfold Rdiv. nra.
    - destruct (Rlt_dec p 0) as [L|L].
      + pose proof (Rinv_lt_0_compat p L). rewrite (safe_ln_low p) by lra. rewrite safe_ln_low; [right; reflexivity|]. unfold Rdiv. nra.
      + apply safe_ln_mono. pose proof (Rinv_0_lt_compat p ltac:(lra)). unfold Rdiv. nra. }
  assert (MS : 0 < eta -> forall p, epsilon <= p <= 1 - epsilon -> safe_ln p < safe_ln (p + eta / guard p)).
  { intros He' p Hp'. unfold guard. destruct (Req_EM_T p 0); [lra|]. pose proof (Rinv_0_lt_compat p ltac:(lra)) as Hi. unfold Rdiv.
    rewrite (safe_ln_inside p) by lra. assert (Hgt : p < p + eta * / p) by nra. destruct (Rle_dec (p + eta * / p) 1) as [L|L].
    - rewrite safe_ln_inside by lra. apply ln_increasing; lra.
    - rewrite safe_ln_one by lra. rewrite <- ln_1. apply ln_increasing; lra. }
  assert (S0 : forall y, 1 - (y - eta * - (0 / guard y - (1 - 0) / guard (1 - y))) = (1 - y) + eta / guard (1 - y)) by (intros; unfold Rdiv; ring).
  assert (S1 : forall y, y - eta * - (1 / guard y - (1 - 1) / guard (1 - y)) = y + eta / guard y) by (intros; unfold Rdiv; ring).
  assert (L : everywhere n m K (fun r c k =>
    - (f r c k * safe_ln (g r c k - eta * - (f r c k / guard (g r c k) - (1 - f r c k) / guard (1 - g r c k))) +
       (1 - f r c k) * safe_ln (1 - (g r c k - eta * - (f r c k / guard (g r c k) - (1 - f r c k) / guard (1 - g r c k))))) <=
    - (f r c k * safe_ln (g r c k) + (1 - f r c k) * safe_ln (1 - g r c k)))).
  { intros r c k Hr Hc Hk. destruct (Hb r c k Hr Hc Hk) as [-> | ->].
    - rewrite S0. pose proof (M (1 - g r c k)). lra.
    - rewrite S1. pose proof (M (g r c k)). lra. }
  split; [now apply sum_elements_le|].
  intros He' (r & c & k & Hr & Hc & Hk & Hin). apply sum_elements_lt; [exact L|]. exists r, c, k. repeat split; auto.
  destruct (Hb r c k Hr Hc Hk) as [-> | ->].
  - rewrite S0. pose proof (MS He' (1 - g r c k) ltac:(lra)). lra.
  - rewrite S1. pose proof (MS He' (g r c k) ltac:(lra)). lra.
Qed.

(** ** Categorical cross entropy *)
Lemma one_hot_sum : forall n m K f r0 c0 k0 h, one_hot n m K f r0 c0 k0 ->
  Scaling_Spec.sum (elements n m K (fun r c k => - f r c k * h r c k)) = - h r0 c0 k0.
Proof.
  intros n m K f r0 c0 k0 h (Hr & Hc & Hk & H1 & H0).
  rewrite (elements_ext n m K _ (at_position (fun _ _ _ => 0) r0 c0 k0 (- h r0 c0 k0))).
  2: { intros r c k Hr' Hc' Hk'. destruct (Nat.eq_dec r r0) as [->|]; [destruct (Nat.eq_dec c c0) as [->|]; [destruct (Nat.eq_dec k k0) as [->|]|]|].
       1: { rewrite at_position_here, H1. ring. }
       all: rewrite at_position_there by congruence; rewrite H0 by (auto; congruence); ring. }
  rewrite elements_positions.
  pose proof (positions_NoDup n m K) as ND. pose proof (proj2 (positions_in n m K r0 c0 k0) (conj Hr (conj Hc Hk))) as Hin.
  revert ND Hin. generalize (positions n m K). generalize (- h r0 c0 k0). clear. intros y l.
  assert (Z : forall l, ~ In (r0, c0, k0) l -> Scaling_Spec.sum (map (fun '(r, c, k) => at_position (fun _ _ _ => 0) r0 c0 k0 y r c k) l) = 0).
  { clear l. unfold Scaling_Spec.sum. induction l as [|[[r c] k] l IH]; intros H; [reflexivity|]. cbn [map fold_right].
    rewrite IH by (intros G; apply H; now right). rewrite at_position_there by (intros G; apply H; now left). ring. }
  induction l as [|[[r c] k] l IH]; intros ND Hin; [destruct Hin|]. inversion ND as [|? ? Hn NDl]; subst.
  unfold Scaling_Spec.sum in *. cbn [map fold_right]. destruct Hin as [Eq|Hin].
  - injection Eq as -> -> ->. rewrite at_position_here, Z by exact Hn. ring.
  - rewrite (IH NDl Hin), at_position_there by (intros G; rewrite G in Hn; contradiction). ring.
Qed.

Theorem cce_measures_the_error : forall truth prediction n m K f g, is_tensor truth n m K f -> is_tensor prediction n m K g ->
  everywhere n m K (fun r c k => 0 <= f r c k) ->
  exists v, loss_of cce truth prediction = Ok v /\ 0 <= v /\
    forall r0 c0 k0, one_hot n m K f r0 c0 k0 -> 0 <= g r0 c0 k0 <= 1 -> (v = 0 <-> g r0 c0 k0 = 1) /\ (epsilon <= g r0 c0 k0 -> v = - ln (g r0 c0 k0)).
Proof.
  intros truth prediction n m K f g Ht Hp H0. destruct (cce_elements _ _ n m K f g Ht Hp) as [E _]. eexists. split; [exact E|]. split.
  - apply sum_elements_nonneg. intros r c k Hr Hc Hk. specialize (H0 r c k Hr Hc Hk). pose proof (safe_ln_neg (g r c k)). nra.
  - intros r0 c0 k0 Hh Hg. rewrite (one_hot_sum n m K f r0 c0 k0 (fun r c k => safe_ln (g r c k)) Hh). pose proof epsilon_bounds as Heps. split; [split; intros H|].
    + destruct (Req_dec (g r0 c0 k0) 1) as [G|G]; [exact G|exfalso]. destruct (Rle_dec (g r0 c0 k0) epsilon) as [L|L].
      * rewrite safe_ln_low in H by exact L. pose proof (ln_increasing epsilon 1 ltac:(lra) ltac:(lra)). rewrite ln_1 in *. lra.
      * rewrite safe_ln_inside in H by lra. pose proof (ln_increasing (g r0 c0 k0) 1 ltac:(lra) ltac:(lra)). rewrite ln_1 in *. lra.
    + rewrite H, safe_ln_one by lra. ring.
    + intros Hge. rewrite safe_ln_inside by lra. reflexivity.
Qed.
(** The right class: a step of up to 1 against the reported derivative does not increase the loss. *)
Theorem cce_descends : forall truth prediction n m K f g r0 c0 k0 eta next, is_tensor truth n m K f -> is_tensor prediction n m K g ->
  one_hot n m K f r0 c0 k0 -> 0 <= eta <= 1 -> descent_step cce truth prediction n m K g eta next ->
  exists v v', loss_of cce truth prediction = Ok v /\ loss_of cce truth next = Ok v' /\ v' <= v /\
    (0 < eta -> epsilon <= g r0 c0 k0 < 1 -> v' < v).
Proof.
  intros truth prediction n m K f g r0 c0 k0 eta next Ht Hp Hh He Hs. destruct (cce_elements _ _ n m K f g Ht Hp) as (E & d & Ed & Hd).
  pose proof (step_tensor _ _ _ _ _ _ _ _ _ _ _ Hs Ed Hd) as Hn. destruct (cce_elements _ _ n m K f _ Ht Hn) as (E' & _).
  do 2 eexists. split; [exact E|]. split; [exact E'|].
  rewrite (one_hot_sum n m K f r0 c0 k0 (fun r c k => safe_ln (g r c k)) Hh).
  rewrite (one_hot_sum n m K f r0 c0 k0 (fun r c k => safe_ln (g r c k - eta * (g r c k - f r c k))) Hh).
  destruct Hh as (_ & _ & _ & H1 & _). rewrite H1. set (p := g r0 c0 k0). clearbody p. pose proof epsilon_bounds as Heps. split.
  - apply Ropp_le_contravar. destruct (Rle_dec p 1) as [L|L].
    + apply safe_ln_mono. nra.
    + rewrite (safe_ln_one p), safe_ln_one by nra. right. reflexivity.
  - intros He' Hp'. apply Ropp_lt_contravar. rewrite !safe_ln_inside by nra. apply ln_increasing; nra.
Qed.

(** The derivative reported by the categorical cross entropy is the gradient, with respect to the
    inputs of a softmax, of the loss of its output. *)
Lemma softmax_sum_pos : forall n m K g, (0 < n * m * K)%nat -> 0 < Scaling_Spec.sum (map exp (elements n m K g)).
Proof.
  intros n m K g Hpos. apply sum_pos.
  - pose proof (elements_length n m K g) as L. destruct (elements n m K g); [cbn in L; lia|discriminate].
  - intros x Hx. apply in_map_iff in Hx as (y & <- & _). apply exp_pos.
Qed.
Theorem cce_of_softmax_gradient : forall truth z p n m K f g h r0 c0 k0, is_tensor truth n m K f -> one_hot n m K f r0 c0 k0 ->
  is_tensor z n m K g -> softmax z = Ok p -> is_tensor p n m K h -> epsilon < h r0 c0 k0 ->
  exists d delta, derivative_of cce truth p = Ok d /\ is_tensor d n m K delta /\
    everywhere n m K (fun r c k => partial_derivative (fun z => do p <- softmax z; loss_of cce truth p) n m K g r c k (delta r c k)).
Proof.
  intros truth z p n m K f g h r0 c0 k0 Ht Hh Hz Ep Hp Hlow.
  destruct (cce_elements _ _ n m K f h Ht Hp) as (_ & d & Ed & Hd). exists d. eexists. split; [exact Ed|]. split; [exact Hd|].
  intros r c k Hr Hc Hk. cbv beta.
  assert (Hpos : (0 < n * m * K)%nat) by (apply Nat.mul_pos_pos; [apply Nat.mul_pos_pos|]; lia).
  assert (Hval : everywhere n m K (fun r c k => h r c k = exp (g r c k) / Scaling_Spec.sum (map exp (elements n m K g)))).
  { destruct (softmax_tensor z n m K g Hz) as (u & Eu & Hu). rewrite Ep in Eu. injection Eu as <-. exact (is_tensor_values _ _ _ _ _ _ Hp Hu). }
  set (S := fun x => Scaling_Spec.sum (map exp (elements n m K (at_position g r c k x)))).
  set (a := fun x => at_position g r c k x r0 c0 k0).
  assert (Here : forall r' c' k', at_position g r c k (g r c k) r' c' k' = g r' c' k').
  { intros r' c' k'. unfold at_position. destruct (Nat.eqb_spec r' r) as [->|]; [|reflexivity]. destruct (Nat.eqb_spec c' c) as [->|]; [|reflexivity].
    destruct (Nat.eqb_spec k' k) as [->|]; reflexivity. }
  assert (S0 : S (g r c k) = Scaling_Spec.sum (map exp (elements n m K g))).
  { unfold S. do 2 f_equal. apply elements_ext. intros r' c' k' _ _ _. apply Here. }
  assert (Spos : forall x, 0 < S x) by (intros x; now apply softmax_sum_pos).
  assert (Sd : is_derive S (g r c k) (exp (g r c k))).
  { apply (is_derive_ext (fun x => Scaling_Spec.sum (elements n m K (fun r' c' k' => exp (at_position g r c k x r' c' k'))))).
    - intros x. unfold S. now rewrite (elements_map n m K (at_position g r c k x) exp).
    - apply (sum_partial n m K r c k g (fun _ _ _ x => exp x)); auto. apply is_derive_exp. }
  assert (Ad : is_derive a (g r c k) (f r c k)).
  { destruct Hh as (Hr0 & Hc0 & Hk0 & H1 & H0). unfold a.
    assert (Dec : (r, c, k) = (r0, c0, k0) \/ (r, c, k) <> (r0, c0, k0)).
    { destruct (Nat.eq_dec r r0) as [->|]; [destruct (Nat.eq_dec c c0) as [->|]; [destruct (Nat.eq_dec k k0) as [->|]|]|]; (now left) || (right; congruence). }
    destruct Dec as [Q|Q].
    - injection Q as -> -> ->. rewrite H1. apply (is_derive_ext (fun x => x)); [intros x; now rewrite at_position_here|]. apply @is_derive_id.
    - rewrite (H0 r c k Hr Hc Hk Q). apply (is_derive_ext (fun _ => g r0 c0 k0)); [|apply @is_derive_const].
      intros x. rewrite at_position_there; [reflexivity|congruence]. }
  assert (A0 : a (g r c k) = g r0 c0 k0) by apply Here.
  exists (fun x => - safe_ln (exp (a x) / S x)). split.
  - intros x q Hq. destruct (softmax_tensor q n m K _ Hq) as (u & Eu & Hu). rewrite Eu. cbn [obind].
    destruct (cce_elements _ _ n m K f _ Ht Hu) as [El _]. rewrite El. f_equal.
    apply (one_hot_sum n m K f r0 c0 k0 (fun r' c' k' => safe_ln (exp (at_position g r c k x r' c' k') / S x)) Hh).
  - apply is_derive_Reals. apply (is_derive_ext_loc (fun x => - a x + ln (S x))).
    + assert (Cont : continuous (fun x => exp (a x) / S x) (g r c k)).
      { assert (Ex : is_derive (fun x => exp (a x)) (g r c k) (f r c k * exp (a (g r c k)))).
        { apply (is_derive_comp exp a); [apply is_derive_exp|exact Ad]. }
        apply (ex_derive_continuous (V := R_NormedModule)). eexists. apply (is_derive_div (fun x => exp (a x)) S); [exact Ex|exact Sd|].
        pose proof (Spos (g r c k)). lra. }
      assert (Loc : locally (g r c k) (fun x => epsilon < exp (a x) / S x)).
      { apply (Cont (fun y => epsilon < y)). apply (open_gt epsilon). rewrite A0, S0. destruct Hh as (Hr0 & Hc0 & Hk0 & _).
        rewrite <- (Hval r0 c0 k0 Hr0 Hc0 Hk0). exact Hlow. }
      revert Loc. apply filter_imp. intros x Hx. pose proof (Spos x) as Px. pose proof (exp_pos (a x)) as Pe.
      assert (Hle : exp (a x) / S x <= 1).
      { apply (Rmult_le_reg_r (S x) _ _ Px). unfold Rdiv. rewrite Rmult_assoc, Rinv_l, Rmult_1_r, Rmult_1_l by lra. unfold S, a.
        rewrite <- (elements_map n m K (at_position g r c k x) exp). destruct Hh as (Hr0 & Hc0 & Hk0 & _).
        assert (Hin : In (exp (at_position g r c k x r0 c0 k0)) (elements n m K (fun r' c' k' => exp (at_position g r c k x r' c' k'))))
          by (apply elements_in; exists r0, c0, k0; auto).
        assert (Hall : forall y, In y (elements n m K (fun r' c' k' => exp (at_position g r c k x r' c' k'))) -> 0 <= y)
          by (intros y Hy; apply elements_in in Hy as (r' & c' & k' & _ & _ & _ & <-); left; apply exp_pos).
        revert Hin Hall. generalize (exp (at_position g r c k x r0 c0 k0)). generalize (elements n m K (fun r' c' k' => exp (at_position g r c k x r' c' k'))).
        clear. intros l y. unfold Scaling_Spec.sum. induction l as [|w l IH]; intros Hin Hall; [destruct Hin|]. cbn [fold_right].
        assert (P : 0 <= fold_right Rplus 0 l).
        { clear - Hall. induction l as [|v l IH]; [cbn; lra|]. cbn [fold_right]. pose proof (Hall v (or_intror (or_introl eq_refl))).
          assert (forall y, In y (w :: l) -> 0 <= y) by (intros y Hy; apply Hall; destruct Hy; [now left|right; now right]). specialize (IH H0). lra. }
        pose proof (Hall w (or_introl eq_refl)). destruct Hin as [->|Hin]; [lra|]. specialize (IH Hin (fun v Hv => Hall v (or_intror Hv))). lra. }
      rewrite safe_ln_inside by lra. rewrite ln_div by assumption. rewrite ln_exp. cbn. lra.
    + replace (h r c k - f r c k) with (- f r c k + exp (g r c k) * / S (g r c k)) by (rewrite S0, (Hval r c k Hr Hc Hk); unfold Rdiv; ring).
      assert (D1 : is_derive (fun x => - a x) (g r c k) (- f r c k)) by (apply (is_derive_opp a); exact Ad).
      assert (D2 : is_derive (fun x => ln (S x)) (g r c k) (exp (g r c k) * / S (g r c k))).
      { apply (is_derive_comp ln S); [|exact Sd]. apply is_derive_Reals. apply derivable_pt_lim_ln. apply Spos. }
      exact (@is_derive_plus R_AbsRing R_NormedModule _ _ _ _ _ D1 D2).
Qed.

(** A softmax layer multiplies what it gets by its own inputs on the way back instead of passing it
    on, so the step the network takes is not that gradient: here every step of it, however small,
    increases the loss. *)
Definition pair_of (a b : R) : tensor R := {| rows := 1; cols := 2; chans := 1; get := fun _ c _ => Ok (match c with 0 => a | _ => b end)%nat |}.
Lemma pair_tensor : forall a b, is_tensor (pair_of a b) 1 2 1 (fun _ c _ => match c with 0 => a | _ => b end)%nat.
Proof. intros a b. unfold is_tensor, pair_of. cbn [rows cols chans get]. repeat split; auto. Qed.
Theorem cce_through_softmax_layer_refuted : exists truth z f g, is_tensor truth 1 2 1 f /\ one_hot 1 2 1 f 0 0 0 /\ is_tensor z 1 2 1 g /\
  exists p d e delta, softmax z = Ok p /\ derivative_of cce truth p = Ok d /\ activation_backward Softmax [z] d = Ok e /\ is_tensor e 1 2 1 delta /\
  forall eta next p', 0 < eta -> is_tensor next 1 2 1 (fun r c k => g r c k - eta * delta r c k) -> softmax next = Ok p' ->
    exists v v', loss_of cce truth p = Ok v /\ loss_of cce truth p' = Ok v' /\ v < v'.
Proof.
  exists (pair_of 1 0), (pair_of (-2) 1). do 2 eexists. split; [apply pair_tensor|]. 
  assert (Hh : one_hot 1 2 1 (fun _ c _ => match c with 0%nat => 1 | _ => 0 end) 0 0 0).
  { unfold one_hot, everywhere. repeat split; auto. intros r c k Hr Hc Hk Hne. destruct c as [|c]; [|reflexivity].
    exfalso. apply Hne. assert (r = 0)%nat by lia. assert (k = 0)%nat by lia. now subst. }
  split; [exact Hh|]. split; [apply pair_tensor|].
  destruct (softmax_tensor (pair_of (-2) 1) 1 2 1 _ (pair_tensor _ _)) as (p & Ep & Hp).
  destruct (cce_elements _ _ 1 2 1 _ _ (pair_tensor 1 0) Hp) as (El & d & Ed & Hd).
  destruct (pointwise_tensor (mul rops) _ _ 1 2 1 _ _ (pair_tensor (-2) 1) Hd) as (e & Ee & He).
  exists p, d, e. eexists. split; [exact Ep|]. split; [exact Ed|]. split; [exact Ee|]. split; [exact He|].
  intros eta next p' Heta Hn Ep'. destruct (softmax_tensor next 1 2 1 _ Hn) as (u & Eu & Hu). rewrite Ep' in Eu. injection Eu as <-.
  destruct (cce_elements _ _ 1 2 1 _ _ (pair_tensor 1 0) Hu) as (El' & _). do 2 eexists. split; [exact El|]. split; [exact El'|].
  rewrite (one_hot_sum 1 2 1 _ 0 0 0 (fun r c k => safe_ln _) Hh). rewrite (one_hot_sum 1 2 1 _ 0 0 0 (fun r c k => safe_ln _) Hh).
  unfold elements. cbn [seq map concat app mul rops]. unfold Scaling_Spec.sum. cbn [fold_right]. rewrite !Rplus_0_r.
  set (A := exp (-2)). set (B := exp 1). pose proof (exp_pos (-2)) as PA. pose proof (exp_pos 1) as PB. fold A in PA. fold B in PB.
  set (q := B / (A + B)). assert (Hq : 0 < q) by (unfold q; apply Rdiv_lt_0_compat; lra).
  assert (HA : A / (A + B) - 1 = - q) by (unfold q; field; lra). rewrite HA.
  replace (-2 - eta * (-2 * - q)) with (-2 + (- (2 * (eta * q)))) by ring. replace (1 - eta * (1 * (q - 0))) with (1 + (- (eta * q))) by ring.
  rewrite !exp_plus. fold A. fold B.
  assert (Hs : 0 < eta * q) by nra. set (s := eta * q) in *. clearbody s.
  assert (Hx : exp (- (2 * s)) = exp (- s) * exp (- s)) by (rewrite <- exp_plus; f_equal; ring). rewrite Hx.
  pose proof (exp_pos (- s)) as Py. assert (Hy : exp (- s) < 1) by (rewrite <- exp_0; apply exp_increasing; lra). set (y := exp (- s)) in *. clearbody y.
  assert (Hlt : A * (y * y) / (A * (y * y) + B * y) < A / (A + B)).
  { assert (PyA : 0 < A * y) by nra. assert (D : 0 < A * y + B) by lra.
    replace (A * (y * y) / (A * (y * y) + B * y)) with (A * y / (A * y + B)).
    2: { pose proof (Rmult_lt_0_compat y y Py Py) as Pyy. pose proof (Rmult_lt_0_compat A (y * y) PA Pyy). pose proof (Rmult_lt_0_compat B y PB Py). field. repeat split; lra. }
    apply (Rmult_lt_reg_r ((A * y + B) * (A + B))); [nra|].
    replace (A * y / (A * y + B) * ((A * y + B) * (A + B))) with (A * y * (A + B)) by (field; lra).
    replace (A / (A + B) * ((A * y + B) * (A + B))) with (A * (A * y + B)) by (field; lra).
    pose proof (Rmult_lt_0_compat A B PA PB) as PAB. pose proof (Rmult_lt_compat_l (A * B) y 1 PAB Hy). lra. }
  assert (Hlow : epsilon < A / (A + B)).
  { assert (E3 : B = A * exp 3) by (unfold A, B; rewrite <- exp_plus; f_equal; ring).
    assert (L3 : exp 3 <= 27).
    { replace 3 with (1 + 1 + 1) by ring. rewrite !exp_plus. pose proof exp_le_3 as L. pose proof (exp_pos 1) as P. clear - L P. nra. }
    rewrite E3. replace (A / (A + A * exp 3)) with (/ (1 + exp 3)) by (pose proof (exp_pos 3); field; split; nra).
    apply Rlt_le_trans with (/ 28); [unfold epsilon; lra|]. apply Rinv_le_contravar; [pose proof (exp_pos 3); lra|lra]. }
  assert (Hone : A / (A + B) <= 1) by (unfold q in *; lra).
  set (P := A / (A + B)) in *. set (P' := A * (y * y) / _) in *. clearbody P P'. pose proof epsilon_bounds as Heps.
  apply Ropp_lt_contravar. rewrite (safe_ln_inside P) by lra. destruct (Rle_dec P' epsilon) as [L|L].
  - rewrite safe_ln_low by exact L. apply ln_increasing; lra.
  - rewrite safe_ln_inside by lra. apply ln_increasing; lra.
Qed.

(** ** Examples *)
(** [1.0f - 1e-8f] is [1.0f]; [1e-8f] is 11258999 / 2^50 and [0.01f] is 10737418 / 2^30. *)
Example ex_one_minus_epsilon : F32_Model.to_bits (F32_Model.fsub (F32_Model.of_bits 0x3F800000) (F32_Model.of_bits 0x322BCC77)) = 0x3F800000%N.
Proof. vm_compute. reflexivity. Qed.
Example ex_epsilon : (0x322BCC77 = (100 * 2 ^ 23) + (11258999 - 2 ^ 23))%N /\ (100 - 127 - 23 = -50)%Z.
Proof. vm_compute. auto. Qed.
(** Truth (1, 0), prediction (1/2, 1/4): mean squared error 5/32, one step of 1/4 halves the error. *)
Example ex_mse : loss_of mse (pair_of 1 0) (pair_of (/ 2) (/ 4)) = Ok (5 / 32) /\
  descent_step mse (pair_of 1 0) (pair_of (/ 2) (/ 4)) 1 2 1 (fun _ c _ => match c with 0%nat => / 2 | _ => / 4 end) (/ 4) (pair_of (3 / 4) (/ 8)) /\
  loss_of mse (pair_of 1 0) (pair_of (3 / 4) (/ 8)) = Ok (5 / 128).
Proof.
  destruct (mse_elements _ _ 1 2 1 _ _ (pair_tensor 1 0) (pair_tensor (/ 2) (/ 4))) as (E & d & Ed & Hd).
  destruct (mse_elements _ _ 1 2 1 _ _ (pair_tensor 1 0) (pair_tensor (3 / 4) (/ 8))) as (E' & _).
  split; [rewrite E; f_equal; unfold average, Scaling_Spec.sum, elements; cbn; field|].
  split; [|rewrite E'; f_equal; unfold average, Scaling_Spec.sum, elements; cbn; field].
  exists d. eexists. split; [exact Ed|]. split; [exact Hd|]. unfold is_tensor. cbn [rows cols chans get pair_of]. repeat split; auto.
  intros i j l _ Hj _. destruct j as [|j]; f_equal; cbn; field.
Qed.
(** The same step with the mean absolute error takes the prediction away from the truth. *)
Example ex_mae : loss_of mae (pair_of 1 0) (pair_of (/ 2) (/ 4)) = Ok (3 / 8) /\
  descent_step mae (pair_of 1 0) (pair_of (/ 2) (/ 4)) 1 2 1 (fun _ c _ => match c with 0%nat => / 2 | _ => / 4 end) 1 (pair_of 0 (/ 2)) /\
  loss_of mae (pair_of 1 0) (pair_of 0 (/ 2)) = Ok (3 / 4).
Proof.
  destruct (mae_elements _ _ 1 2 1 _ _ (pair_tensor 1 0) (pair_tensor (/ 2) (/ 4))) as (E & d & Ed & Hd).
  destruct (mae_elements _ _ 1 2 1 _ _ (pair_tensor 1 0) (pair_tensor 0 (/ 2))) as (E' & _).
  assert (A : forall x, x <= 0 -> Rabs x = - x) by (intros; now apply Rabs_left1).
  split; [rewrite E; f_equal; unfold average, Scaling_Spec.sum, elements; cbn; rewrite A, Rabs_pos_eq by lra; field|].
  split; [|rewrite E'; f_equal; unfold average, Scaling_Spec.sum, elements; cbn; rewrite A, Rabs_pos_eq by lra; field].
  exists d. eexists. split; [exact Ed|]. split; [exact Hd|]. unfold is_tensor. cbn [rows cols chans get pair_of]. repeat split; auto.
  intros i j l _ Hj _. destruct j as [|j]; f_equal; cbn; field.
Qed.
Example ex_one_hot : one_hot 1 2 1 (fun _ c _ => match c with 0%nat => 1 | _ => 0 end) 0 0 0 /\ binary 1 2 1 (fun _ c _ => match c with 0%nat => 1 | _ => 0 end).
Proof.
  split.
  - unfold one_hot, everywhere. repeat split; auto. intros r c k Hr Hc Hk Hne. destruct c as [|c]; [|reflexivity].
    exfalso. apply Hne. assert (r = 0)%nat by lia. assert (k = 0)%nat by lia. now subst.
  - intros r c k _ _ _. destruct c; auto.
Qed.

Print Assumptions mse_measures_the_error.
Print Assumptions mse_gradient.
Print Assumptions mse_descends.
Print Assumptions mae_measures_the_error_partial.
Print Assumptions mae_descends_refuted.
Print Assumptions mae_gradient_refuted.
Print Assumptions smae_measures_the_error_partial.
Print Assumptions smae_is_smooth_absolute_error_refuted.
Print Assumptions smae_gradient.
Print Assumptions smae_descends.
Print Assumptions bce_measures_the_error.
Print Assumptions bce_gradient.
Print Assumptions bce_descends.
Print Assumptions cce_measures_the_error.
Print Assumptions cce_descends.
Print Assumptions cce_of_softmax_gradient.
Print Assumptions cce_through_softmax_layer_refuted.
