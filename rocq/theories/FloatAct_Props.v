(** C108: the activation functions as they are computed, with [float]. *)
From Coq Require Import List Arith Bool ZArith Reals Lia Lra.
From Flocq Require Import Core IEEE754.BinarySingleNaN IEEE754.Binary IEEE754.Bits.
From Verif Require Import Outcome Tensor_Model Tensor_Spec F32_Model F32_Proofs Reduce_Model Activation_Model FloatNet_Model FloatNet_Spec FloatNet_Proofs FloatSoft_Proofs FloatAct_Proofs FloatExp_Proofs FloatNet_Props FloatSoft_Props.
From Verif Require Reduce_Spec Reduce_Proofs ModelFile_Model.
Import ListNotations.
Local Open Scope R_scope.

(** What [activate] makes of a tensor, element by element. *)
Definition makes_of_each (lib : library) (a : ModelFile_Model.activation) (P : F -> F -> Prop) : Prop :=
  forall t n m K f, is_tensor t n m K f -> exists y g, float_activate lib a t = Ok y /\ is_tensor y n m K g /\
    forall r c k, (r < n)%nat -> (c < m)%nat -> (k < K)%nat -> P (f r c k) (g r c k).
(** Of two elements, the one that is not below the other does not come out below it. *)
Definition keeps_order (lib : library) (a : ModelFile_Model.activation) : Prop :=
  forall t n m K f, is_tensor t n m K f -> exists y g, float_activate lib a t = Ok y /\ is_tensor y n m K g /\
    forall r c k r' c' k', (r < n)%nat -> (c < m)%nat -> (k < K)%nat -> (r' < n)%nat -> (c' < m)%nat -> (k' < K)%nat ->
      ~ is_NaN (f r c k) -> ~ is_NaN (f r' c' k') -> Reduce_Spec.order (f r c k) <= Reduce_Spec.order (f r' c' k') -> Reduce_Spec.order (g r c k) <= Reduce_Spec.order (g r' c' k').
Lemma each : forall lib a g (P : F -> F -> Prop), (forall t, float_activate lib a t = Ok (transform g t)) -> (forall x, P x (g x)) -> makes_of_each lib a P.
Proof. intros lib a g P E H t n m K f Ht. exists (transform g t), (fun r c k => g (f r c k)). split; [apply E|]. split; [now apply transform_tensor|]. intros r c k _ _ _. apply H. Qed.
Lemma in_order : forall lib a g, (forall t, float_activate lib a t = Ok (transform g t)) -> (forall x y, ~ is_NaN x -> ~ is_NaN y -> Reduce_Spec.order x <= Reduce_Spec.order y -> Reduce_Spec.order (g x) <= Reduce_Spec.order (g y)) -> keeps_order lib a.
Proof. intros lib a g E H t n m K f Ht. exists (transform g t), (fun r c k => g (f r c k)). split; [apply E|]. split; [now apply transform_tensor|]. intros r c k r' c' k' _ _ _ _ _ _. apply H. Qed.

(** C108 *)
(** Sigmoid makes numbers from 0 to 1 of all numbers and infinities, one half of 0, and keeps their order. *)
Theorem float_sigmoid_works : forall lib, exponential_like (expf lib) ->
  makes_of_each lib ModelFile_Model.sigmoid (fun x y => (~ is_NaN x -> is_number y /\ 0 <= number y <= 1) /\ (is_number x -> number x = 0 -> number y = / 2)) /\
  (monotone (expf lib) -> keeps_order lib ModelFile_Model.sigmoid).
Proof.
  intros lib E. split.
  - apply (each _ _ (float_sigmoid lib)); [reflexivity|]. intros x. split; [apply (sigmoid_fraction lib E)|apply (sigmoid_half lib E)].
  - intros M. apply (in_order _ _ (float_sigmoid lib)); [reflexivity|]. intros x y Nx Ny L. change (order (float_sigmoid lib x) <= order (float_sigmoid lib y)). rewrite !order_number by (apply (sigmoid_fraction lib E); assumption). now apply (sigmoid_monotone lib E M).
Qed.
Print Assumptions float_sigmoid_works.
(** The approximation of tanh makes numbers from -1 to 1 of all numbers and infinities, and keeps their order. *)
Theorem float_tanh_approx_works : forall lib, exponential_like (expf lib) ->
  makes_of_each lib ModelFile_Model.tanhApprox (fun x y => ~ is_NaN x -> is_number y /\ -1 <= number y <= 1) /\
  (monotone (expf lib) -> keeps_order lib ModelFile_Model.tanhApprox).
Proof.
  intros lib E. split.
  - apply (each _ _ (float_tanh_approx lib)); [reflexivity|]. intros x. apply (tanh_approx_is lib E).
  - intros M. apply (in_order _ _ (float_tanh_approx lib)); [reflexivity|]. intros x y Nx Ny L. change (order (float_tanh_approx lib x) <= order (float_tanh_approx lib y)). rewrite !order_number by (apply (tanh_approx_is lib E); assumption). now apply (tanh_approx_monotone lib E M).
Qed.
Print Assumptions float_tanh_approx_works.
(** ReLU makes exactly the larger of an element and 0; NaN stays NaN. *)
Theorem float_relu_works : forall lib,
  makes_of_each lib ModelFile_Model.relu (fun x y => (~ is_NaN x -> ~ is_NaN y /\ Reduce_Spec.order y = Rmax (Reduce_Spec.order x) 0) /\ (is_NaN x -> is_NaN y)).
Proof. intros lib. apply (each _ _ float_relu); [reflexivity|]. intros x. split; [apply relu_is|apply relu_NaN]. Qed.
Print Assumptions float_relu_works.
(** Leaky ReLU, for numbers: exact from 0 on, and a hundredth, but for rounding, below 0. *)
Theorem float_leaky_works : forall lib,
  makes_of_each lib ModelFile_Model.leaky (fun x y => is_number x -> is_number y /\ (0 <= number x -> number y = number x) /\ (number x < 0 -> Rabs (number y - number x / 100) <= 2 * unit_error * Rabs (number x / 100) + tiny)).
Proof.
  intros lib. apply (each _ _ float_leaky); [reflexivity|]. intros x N. destruct (leaky_is x N) as [Nl Vl]. split; [exact Nl|]. rewrite Vl. split; intros H; destruct (Rlt_dec (number x) 0) as [C|C]; try lra.
  set (k := number x) in *. set (a := number float_leak). pose proof (rounded_error (a * k)) as E. pose proof unit_value as U.
  assert (A : Rabs (a - / 100) <= / 2 * unit_error * / 100). { unfold a. rewrite leak_value. replace (bpow radix2 (-30)) with (/ 1073741824) by reflexivity. rewrite U. apply Rabs_le. lra. }
  assert (A' : Rabs a <= (1 + / 2 * unit_error) * / 100). { replace a with (/ 100 + (a - / 100)) by ring. eapply Rle_trans; [apply Rabs_triang|]. rewrite (Rabs_pos_eq (/ 100)) by lra. lra. }
  replace (rnd (a * k) - k / 100) with ((rnd (a * k) - a * k) + (a - / 100) * k) by (unfold Rdiv; ring). eapply Rle_trans; [apply Rabs_triang|]. rewrite (Rabs_mult (a - / 100)). unfold Rdiv. rewrite (Rabs_mult k (/ 100)), (Rabs_pos_eq (/ 100)) by lra. rewrite Rabs_mult in E. pose proof (Rabs_pos k) as K0.
  assert (Rabs (a - / 100) * Rabs k <= / 2 * unit_error * / 100 * Rabs k) by (apply Rmult_le_compat_r; lra). assert (unit_error * (Rabs a * Rabs k) <= unit_error * ((1 + / 2 * unit_error) * / 100 * Rabs k)) by (apply Rmult_le_compat_l; [lra|]; apply Rmult_le_compat_r; lra). rewrite U in *. lra.
Qed.
Print Assumptions float_leaky_works.
(** The approximation of sigmoid makes numbers from 0 to 1 of all numbers. *)
Theorem float_sigmoid_approx_works : forall lib, makes_of_each lib ModelFile_Model.sigmoidApprox (fun x y => is_number x -> is_number y /\ 0 <= number y <= 1).
Proof. intros lib. apply (each _ _ float_sigmoid_approx); [reflexivity|]. intros x. apply approx_is. Qed.
Print Assumptions float_sigmoid_approx_works.

(** C108 for infinities *)
(** Leaky ReLU, unlike ReLU, makes NaN of both infinities, and so does the approximation of sigmoid, unlike sigmoid. *)
Theorem infinite_activation_refuted : forall lib x, x = plus_infinity \/ x = minus_infinity ->
  (exists y g, float_activate lib ModelFile_Model.leaky (row [x]) = Ok y /\ is_tensor y 1 1 1 g /\ is_NaN (g 0%nat 0%nat 0%nat)) /\
  (exists y g, float_activate lib ModelFile_Model.sigmoidApprox (row [x]) = Ok y /\ is_tensor y 1 1 1 g /\ is_NaN (g 0%nat 0%nat 0%nat)).
Proof.
  intros lib x H. assert (T : is_tensor (row [x]) 1 1 1 (fun _ _ _ => x)) by (unfold is_tensor; repeat split; try reflexivity; intros i j l Hi Hj Hl; destruct j as [|j]; [reflexivity|lia]).
  split; (eexists _, _; split; [reflexivity|]; split; [apply (transform_tensor _ _ _ _ _ _ T)|]; destruct H as [-> | ->]; reflexivity).
Qed.
Print Assumptions infinite_activation_refuted.

(** With the correctly rounded exponential: minus infinity, 0 and 2^127 through sigmoid. *)
Example ex_sigmoid : exists y g, float_activate precise ModelFile_Model.sigmoid (row [minus_infinity; of_Z 0; large]) = Ok y /\ is_tensor y 1 3 1 g /\
  (forall c, (c < 3)%nat -> is_number (g 0%nat c 0%nat) /\ 0 <= number (g 0%nat c 0%nat) <= 1) /\ number (g 0%nat 1%nat 0%nat) = / 2.
Proof.
  destruct (proj1 (float_sigmoid_works precise rounded_exp_like) (row [minus_infinity; of_Z 0; large]) 1%nat 3%nat 1%nat (fun r c k => nth c [minus_infinity; of_Z 0; large] float0)) as (y & g & Ey & Ty & H).
  - unfold is_tensor. repeat split; try reflexivity. intros i j l Hi Hj Hl. destruct j as [|[|[|j]]]; [reflexivity|reflexivity|reflexivity|lia].
  - exists y, g. split; [exact Ey|]. split; [exact Ty|]. split; [|apply (H 0%nat 1%nat 0%nat); try lia; [reflexivity|apply (whole 0); lia]]. intros c Hc. apply (H 0%nat c 0%nat); try lia. destruct c as [|[|[|c]]]; [discriminate|discriminate| |lia]. apply number_not_NaN. reflexivity.
Qed.
Example ex_leaky : exists y g, float_activate precise ModelFile_Model.leaky (row [of_Z (-100); of_Z 7]) = Ok y /\ is_tensor y 1 2 1 g /\ number (g 0%nat 1%nat 0%nat) = 7 /\ Rabs (number (g 0%nat 0%nat 0%nat) - -1) <= 3 * unit_error.
Proof.
  destruct (float_leaky_works precise (row [of_Z (-100); of_Z 7]) 1%nat 2%nat 1%nat (fun r c k => nth c [of_Z (-100); of_Z 7] float0)) as (y & g & Ey & Ty & H).
  - unfold is_tensor. repeat split; try reflexivity. intros i j l Hi Hj Hl. destruct j as [|[|j]]; [reflexivity|reflexivity|lia].
  - exists y, g. split; [exact Ey|]. split; [exact Ty|]. destruct (whole (-100) ltac:(lia)) as [N1 V1]. destruct (whole 7 ltac:(lia)) as [N2 V2]. split.
    + destruct (H 0%nat 1%nat 0%nat ltac:(lia) ltac:(lia) ltac:(lia) N2) as (_ & Q & _). cbn [nth] in Q. rewrite V2 in Q. apply Q. lra.
    + destruct (H 0%nat 0%nat 0%nat ltac:(lia) ltac:(lia) ltac:(lia) N1) as (_ & _ & Q). cbn [nth] in Q. rewrite V1 in Q. specialize (Q ltac:(lra)). replace (IZR (-100) / 100) with (-1) in Q by (unfold Rdiv; lra). replace (Rabs (-1)) with 1 in Q by (rewrite Rabs_left by lra; ring). pose proof tiny_small. lra.
Qed.
