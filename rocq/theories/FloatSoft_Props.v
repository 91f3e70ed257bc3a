(** C107: softmax as it is computed, with [float]. *)
From Coq Require Import List Arith Bool ZArith Reals Lia Lra.
From Flocq Require Import Core IEEE754.BinarySingleNaN IEEE754.Binary IEEE754.Bits.
From Verif Require Import Outcome Tensor_Model Tensor_Spec F32_Model F32_Proofs Reduce_Model Activation_Model FloatNet_Model FloatNet_Spec FloatNet_Proofs FloatSoft_Proofs FloatAct_Proofs FloatExp_Proofs FloatNet_Props.
From Verif Require Import Layer_Spec.
From Verif Require Reduce_Spec Reduce_Proofs.
Import ListNotations.
Local Open Scope R_scope.

Lemma elements_size : forall {A} n m K (f : nat -> nat -> nat -> A), length (Reduce_Spec.elements n m K f) = (n * m * K)%nat.
Proof.
  intros A n m K f. unfold Reduce_Spec.elements. assert (Q : forall (B : Type) (h : nat -> list B) w s k, (forall i, length (h i) = w) -> length (concat (map h (seq s k))) = (w * k)%nat). { intros B h w s k H. revert s. induction k as [|k IH]; intros s; [cbn; lia|]. cbn [seq map concat]. rewrite app_length, H, IH. lia. }
  rewrite (Q _ _ (m * n)%nat); [lia|]. intros k. rewrite (Q _ _ m); [reflexivity|]. intros r. now rewrite map_length, seq_length.
Qed.
Lemma total_map : forall {A} (g : A -> R) (l : list A), total (fun x => x) (map g l) = total g l.
Proof. intros A g l. induction l as [|x l IH]; [reflexivity|]. cbn [map total fold_right]. f_equal. exact IH. Qed.
Lemma power_above : forall a k, 0 <= a <= 1 -> 1 - INR k * a <= (1 - a) ^ k.
Proof.
  intros a k H. induction k as [|k IH]; [cbn [INR pow]; lra|]. rewrite S_INR. cbn [pow]. assert (P : 0 <= INR k * a) by (apply Rmult_le_pos; [apply pos_INR|lra]). apply Rle_trans with ((1 - a) * (1 - INR k * a)); [|apply Rmult_le_compat_l; lra].
  assert (0 <= a * (INR k * a)) by (apply Rmult_le_pos; lra). lra.
Qed.
Lemma power_below : forall a k, 0 <= a -> INR k * a <= / 2 -> (1 + a) ^ k <= 1 + 2 * (INR k * a).
Proof.
  intros a k H. assert (P : forall k, INR k * a <= 1 -> (1 + a) ^ k * (1 - INR k * a) <= 1).
  { clear k. induction k as [|k IH]; intros Hk; [cbn [pow INR]; lra|]. rewrite S_INR in *. assert (Q : 0 <= INR k * a) by (apply Rmult_le_pos; [apply pos_INR|lra]). specialize (IH ltac:(lra)). cbn [pow]. eapply Rle_trans; [|exact IH].
    rewrite (Rmult_comm (1 + a)), Rmult_assoc. apply Rmult_le_compat_l; [apply pow_le; lra|]. assert (0 <= a * (INR k * a)) by (apply Rmult_le_pos; lra). assert (0 <= a * a) by (apply Rmult_le_pos; lra). lra. }
  intros Hk. specialize (P k ltac:(lra)). assert (0 <= INR k * a) by (apply Rmult_le_pos; [apply pos_INR|lra]). set (b := INR k * a) in *. set (g := (1 + a) ^ k) in *. apply (Rmult_le_reg_r (1 - b)); [lra|]. eapply Rle_trans; [exact P|]. assert (0 <= b * (1 - 2 * b)) by (apply Rmult_le_pos; lra). lra.
Qed.
Transparent double_error unit_error tiny.
Lemma double_in_unit : double_error = unit_error / 536870912.
Proof. unfold double_error, unit_error. replace (2 ^ 53) with (2 ^ 24 * 536870912) by ring. field. Qed.
Lemma tiny_in_unit : tiny <= unit_error / 536870912.
Proof. rewrite <- double_in_unit. unfold tiny, double_error. apply Rinv_le; [apply pow_lt; lra|]. apply Rle_pow; [lra|lia]. Qed.
Opaque double_error unit_error tiny.

(** C107 *)
(** For scores of which none is NaN or plus infinity and one is a number, whatever their size, softmax gives numbers from 0 to 1
    of which the sum, for up to some hundred million scores, is 1 but for 5 * 2^-24; and a score that is not below another has a probability that is not below its. *)
Theorem float_softmax_works : forall lib t n m K f, exponential_like (expf lib) -> is_tensor t n m K f -> workable (Reduce_Spec.elements n m K f) ->
  exists y p, float_softmax lib t = Ok y /\ numbers y n m K p /\
    (forall r c k, (r < n)%nat -> (c < m)%nat -> (k < K)%nat -> 0 <= p r c k <= 1) /\
    (INR (n * m * K) <= 268435456 -> Rabs (total (fun x => x) (Reduce_Spec.elements n m K p) - 1) <= 5 * unit_error) /\
    (monotone (expf lib) -> forall r c k r' c' k', (r < n)%nat -> (c < m)%nat -> (k < K)%nat -> (r' < n)%nat -> (c' < m)%nat -> (k' < K)%nat ->
       Reduce_Spec.order (f r c k) <= Reduce_Spec.order (f r' c' k') -> p r c k <= p r' c' k').
Proof.
  intros lib t n m K f E Ht W. set (l := Reduce_Spec.elements n m K f) in *. destruct (float_softmax_is lib t n m K f Ht) as (y & Ey & Ty). change (elements n m K f) with l in Ty.
  assert (I : forall r c k, (r < n)%nat -> (c < m)%nat -> (k < K)%nat -> In (f r c k) l) by (intros r c k Hr Hc Hk; apply Reduce_Proofs.elements_in; exists r, c, k; auto).
  set (q := fun v => number (fdiv (expf lib (fsub v (top_of l))) (denominator (expf lib) l))). exists y, (fun r c k => q (f r c k)). split; [exact Ey|].
  split; [|split; [|split]].
  - apply (tensor_numbers _ _ _ _ _ Ty). intros r c k Hr Hc Hk. apply (probability_is (expf lib) E l W). now apply I.
  - intros r c k Hr Hc Hk. apply (probability_is (expf lib) E l W). now apply I.
  - intros Hn. rewrite (float_elements_map n m K f q). fold l. rewrite total_map. pose proof (probabilities_sum (expf lib) E l W) as [B0 B1]. change (fun v => number (fdiv (expf lib (fsub v (top_of l))) (denominator (expf lib) l))) with q in B0, B1.
    assert (EL : length l = (n * m * K)%nat) by apply elements_size. rewrite EL in *. set (N := (n * m * K)%nat) in *. set (S0 := total q l) in *. clearbody S0 N. clear - Hn B0 B1. pose proof unit_pos as U. pose proof unit_small as U'. pose proof (pos_INR N) as N0. pose proof tiny_in_unit as T. pose proof tiny_pos as T0.
    pose proof (power_above double_error N ltac:(rewrite double_in_unit; lra)) as A. pose proof double_in_unit as D. set (d := double_error) in *. assert (Nd : INR N * d <= unit_error / 2) by (rewrite D; apply Rle_trans with (268435456 * (unit_error / 536870912)); [apply Rmult_le_compat_r; lra|lra]).
    assert (Nt : INR N * tiny <= unit_error / 2) by (apply Rle_trans with (268435456 * (unit_error / 536870912)); [apply Rmult_le_compat; lra|lra]). assert (Nd0 : 0 <= INR N * d) by (apply Rmult_le_pos; [lra|rewrite D; lra]). assert (Nt0 : 0 <= INR N * tiny) by (apply Rmult_le_pos; lra).
    pose proof (power_below d N ltac:(rewrite D; lra) ltac:(lra)) as A'. set (g := (1 - d) ^ N) in *. set (h := (1 + d) ^ N) in *. assert (H1 : 1 <= h) by (apply pow_R1_Rle; rewrite D; lra). clearbody g h d. set (u := unit_error) in *. clearbody u.
    assert (UU : 0 <= u * u) by (apply Rmult_le_pos; lra). assert (UU' : u * u <= u * / 1024) by (apply Rmult_le_compat_l; lra). assert (UUU : 0 <= u * u * u) by (apply Rmult_le_pos; lra). assert (UUU' : u * u * u <= u * u * / 1024) by (apply Rmult_le_compat_l; lra).
    assert (X1 : (1 + u) / ((1 - u) * g) <= 1 + 4 * u). { assert (Gp : 0 < g) by lra. apply (Rmult_le_reg_r ((1 - u) * g)); [apply Rmult_lt_0_compat; lra|]. unfold Rdiv. rewrite Rmult_assoc, Rinv_l by (apply Rgt_not_eq, Rmult_lt_0_compat; lra). rewrite Rmult_1_r. apply Rle_trans with ((1 + 4 * u) * ((1 - u) * (1 - u / 2))); [lra|]. apply Rmult_le_compat_l; [lra|]. apply Rmult_le_compat_l; lra. }
    assert (X0 : 1 - 4 * u <= (1 - u) / ((1 + u) * h)). { apply (Rmult_le_reg_r ((1 + u) * h)); [apply Rmult_lt_0_compat; lra|]. unfold Rdiv. rewrite Rmult_assoc, Rinv_l by (apply Rgt_not_eq, Rmult_lt_0_compat; lra). rewrite Rmult_1_r. apply Rle_trans with ((1 - 4 * u) * ((1 + u) * (1 + u))); [|lra]. apply Rmult_le_compat_l; [lra|]. apply Rmult_le_compat_l; lra. }
    apply Rabs_le. lra.
  - intros M r c k r' c' k' Hr Hc Hk Hr' Hc' Hk' L. apply (probability_monotone (expf lib) E l W M); [now apply I|now apply I|exact L].
Qed.
Print Assumptions float_softmax_works.

(** C107 for other scores *)
(** For all other scores — one is NaN, or one is plus infinity, or all are minus infinity — every probability is NaN. *)
Theorem float_softmax_not_a_number : forall lib t n m K f, exponential_like (expf lib) -> is_tensor t n m K f -> ~ workable (Reduce_Spec.elements n m K f) ->
  exists y p, float_softmax lib t = Ok y /\ is_tensor y n m K p /\ forall r c k, (r < n)%nat -> (c < m)%nat -> (k < K)%nat -> is_NaN (p r c k).
Proof.
  intros lib t n m K f E Ht W. destruct (float_softmax_is lib t n m K f Ht) as (y & Ey & Ty). eexists y, _. split; [exact Ey|]. split; [exact Ty|]. intros r c k Hr Hc Hk. cbv beta. apply fdiv_NaN. apply narrow_NaN. apply sum_NaN. right. apply some_NaN; [exact E| |exact W].
  intros Z. assert (I : In (f r c k) (elements n m K f)) by (apply Reduce_Proofs.elements_in; exists r, c, k; auto). rewrite Z in I. destruct I.
Qed.
Print Assumptions float_softmax_not_a_number.

(** The correctly rounded exponential function is one the theorems speak of. *)
Definition precise : library := {| expf := rounded_exp; tanhf := fun x => x |}.
Example ex_precise : exponential_like (expf precise) /\ monotone (expf precise).
Proof. split; [exact rounded_exp_like|exact rounded_exp_monotone]. Qed.
(** Scores as large as they get: 2^127, minus infinity and -2^127. *)
Example ex_large_scores : exists y p, float_softmax precise (row [large; minus_infinity; minus_large]) = Ok y /\ numbers y 1 3 1 p /\ 0 <= p 0%nat 1%nat 0%nat <= p 0%nat 0%nat 0%nat /\ Rabs (p 0%nat 0%nat 0%nat + (p 0%nat 1%nat 0%nat + (p 0%nat 2%nat 0%nat + 0)) - 1) <= 5 * unit_error.
Proof.
  set (f := fun r c k : nat => nth c [large; minus_infinity; minus_large] float0).
  destruct (float_softmax_works precise (row [large; minus_infinity; minus_large]) 1 3 1 f rounded_exp_like) as (y & p & Ey & Ny & B & Sm & M).
  - unfold is_tensor. repeat split; try reflexivity. intros i j l Hi Hj Hl. destruct j as [|[|[|j]]]; [reflexivity|reflexivity|reflexivity|lia].
  - split; [|exists large; split; [left; reflexivity|reflexivity]]. assert (Q : forall x, is_number x -> ~ is_NaN x /\ x <> plus_infinity) by (intros x H; split; [now apply number_not_NaN|intros Z; rewrite Z in H; discriminate H]). intros x [<-|[<-|[<-|[]]]]; [apply Q; reflexivity|split; discriminate|apply Q; reflexivity].
  - exists y, p. split; [exact Ey|]. split; [exact Ny|]. split; [|apply Sm; cbn [Nat.mul Nat.add INR]; lra]. split; [apply B; lia|]. apply (M rounded_exp_monotone); try lia. change (order minus_infinity <= order large). change (order minus_infinity) with (- max32). pose proof (order_bounded large). lra.
Qed.
(** One score is plus infinity: all probabilities are NaN. *)
Example ex_infinite_score : exists y p, float_softmax precise (row [of_Z 1; plus_infinity]) = Ok y /\ is_tensor y 1 2 1 p /\ is_NaN (p 0%nat 0%nat 0%nat) /\ is_NaN (p 0%nat 1%nat 0%nat).
Proof.
  set (f := fun r c k : nat => nth c [of_Z 1; plus_infinity] float0).
  destruct (float_softmax_not_a_number precise (row [of_Z 1; plus_infinity]) 1 2 1 f rounded_exp_like) as (y & p & Ey & Ty & B).
  - unfold is_tensor. repeat split; try reflexivity. intros i j l Hi Hj Hl. destruct j as [|[|j]]; [reflexivity|reflexivity|lia].
  - intros [H _]. destruct (H plus_infinity) as [_ Q]; [right; left; reflexivity|]. now apply Q.
  - exists y, p. split; [exact Ey|]. split; [exact Ty|]. split; apply B; lia.
Qed.
