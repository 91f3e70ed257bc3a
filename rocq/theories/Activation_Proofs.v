(** Lemmas for the activation functions. *)
From Coq Require Import List Arith Bool Lia Reals Lra.
From Coquelicot Require Import Coquelicot.
From Verif Require Import Outcome Tensor_Model Tensor_Spec Algebra_Proofs Scaling_Spec Scaling_Proofs Reduce_Model Reduce_Spec Reduce_Proofs Activation_Model.
Import ListNotations.
Local Open Scope R_scope.

Lemma transform_tensor : forall g t n m K f, is_tensor t n m K f -> is_tensor (value_transform g t) n m K (fun r c k => g (f r c k)).
Proof.
  intros g t n m K f (H1 & H2 & H3 & H). unfold is_tensor. cbn [rows cols chans get value_transform]. repeat split; auto.
  intros i j l Hi Hj Hl. rewrite H by assumption. reflexivity.
Qed.

Lemma elements_map : forall {A B} n m K (f : nat -> nat -> nat -> A) (g : A -> B),
  elements n m K (fun r c k => g (f r c k)) = map g (elements n m K f).
Proof.
  intros A B n m K f g. unfold elements. rewrite concat_map, map_map. f_equal. apply map_ext. intros k.
  rewrite concat_map, map_map. f_equal. apply map_ext. intros r. now rewrite map_map.
Qed.

Lemma sum_pos : forall l, l <> [] -> (forall x, In x l -> 0 < x) -> 0 < Scaling_Spec.sum l.
Proof.
  intros l Hl H. destruct l as [|x l]; [easy|]. clear Hl. revert x H. induction l as [|y l IH]; intros x H.
  - cbn. specialize (H x (or_introl eq_refl)). lra.
  - change (Scaling_Spec.sum (x :: y :: l)) with (x + Scaling_Spec.sum (y :: l)). specialize (IH y (fun z Hz => H z (or_intror Hz))).
    specialize (H x (or_introl eq_refl)). lra.
Qed.
Lemma sum_scale : forall (a : R) (g : R -> R) l, Scaling_Spec.sum (map (fun x => g x * a) l) = Scaling_Spec.sum (map g l) * a.
Proof. intros a g l. unfold Scaling_Spec.sum. induction l as [|x l IH]; cbn [map fold_right]; [ring|]. rewrite IH. ring. Qed.

Lemma sum_tensor : forall t n m K f, is_tensor t n m K f -> Reduce_Model.sum rops t = Ok (Scaling_Spec.sum (elements n m K f)).
Proof.
  intros t n m K f Ht. unfold Reduce_Model.sum. rewrite (scan_fold t n m K f Rplus _ _ Ht) by reflexivity.
  pose proof (fold_sum (fun x => x) (elements n m K f) 0) as E. rewrite map_id, Rplus_0_l in E. rewrite <- E. reflexivity.
Qed.

Lemma real_max_tensor : forall t n m K f, is_tensor t n m K f -> exists o, real_max t = Ok o.
Proof.
  intros t n m K f Ht. unfold real_max. eexists.
  apply (scan_fold t n m K f (fun result v => match result with None => Some v | Some m => if Rlt_dec m v then Some v else Some m end) _ _ Ht). reflexivity.
Qed.

(** Every element of the softmax is exp of the element over the sum of the exps. *)
Lemma softmax_tensor : forall t n m K f, is_tensor t n m K f -> exists u, softmax t = Ok u /\
  is_tensor u n m K (fun r c k => exp (f r c k) / Scaling_Spec.sum (map exp (elements n m K f))).
Proof.
  intros t n m K f Ht. unfold softmax. destruct (real_max_tensor t n m K f Ht) as [o E]. rewrite E. cbn [obind].
  set (M := match o with Some m => m | None => 0 end).
  pose proof (transform_tensor (fun v => v - M) t n m K f Ht) as H1. fold (scalar_subtract t M) in H1.
  pose proof (transform_tensor exp _ n m K _ H1) as H2. fold (exponential (scalar_subtract t M)) in H2.
  rewrite (sum_tensor _ n m K _ H2). cbn [obind]. eexists. split; [reflexivity|].
  eapply is_tensor_ext; [apply (transform_tensor (fun v => v / Scaling_Spec.sum (elements n m K (fun r c k => exp (f r c k - M)))) _ n m K _ H2)|].
  intros r c k Hr Hc Hk. cbv beta.
  rewrite (elements_map n m K f (fun v => exp (v - M))).
  assert (Es : Scaling_Spec.sum (map (fun v => exp (v - M)) (elements n m K f)) = Scaling_Spec.sum (map exp (elements n m K f)) * exp (- M)).
  { rewrite <- sum_scale. f_equal. apply map_ext. intros x. unfold Rminus. apply exp_plus. }
  rewrite Es. unfold Rminus. rewrite exp_plus.
  assert (Hp : 0 < Scaling_Spec.sum (map exp (elements n m K f))).
  { apply sum_pos.
    - destruct (elements n m K f) eqn:El; [|discriminate]. pose proof (elements_length n m K f) as L. rewrite El in L. cbn [length] in L. symmetry in L. apply Nat.eq_mul_0 in L as [L|L]; [apply Nat.eq_mul_0 in L|]; lia.
    - intros x Hx. apply in_map_iff in Hx as (y & <- & _). apply exp_pos. }
  pose proof (exp_pos (- M)). field. lra.
Qed.

(** ** Derivatives *)
Lemma sigmoid_derive : forall x, is_derive sigmoid x (sigmoid_d x).
Proof.
  intros x. unfold sigmoid, sigmoid_d. pose proof (exp_pos (-1 * x)). auto_derive; [lra|]. field. lra.
Qed.
Lemma tanh_approx_derive : forall x, is_derive tanh_approx x (tanh_approx_d x).
Proof.
  intros x. unfold tanh_approx, tanh_approx_d. cbv zeta. pose proof (exp_pos (-1 * (2 * x))). auto_derive; [lra|]. field. lra.
Qed.
Lemma tanh_approx_is_tanh : forall x, tanh_approx x = tanh x.
Proof.
  intros x. unfold tanh_approx, tanh, sinh, cosh. cbv zeta. replace (-1 * (2 * x)) with (- x + - x) by ring. rewrite exp_plus.
  pose proof (exp_pos x). pose proof (exp_pos (- x)). assert (E : exp x * exp (- x) = 1) by (rewrite <- exp_plus, Rplus_opp_r; apply exp_0).
  assert (Ex : exp x = / exp (- x)) by (apply Rmult_eq_reg_r with (exp (- x)); [rewrite E; field; lra|lra]). rewrite Ex. field.
  split; [lra|]. pose proof (Rmult_lt_0_compat _ _ H0 H0). lra.
Qed.
Lemma tanh_d_same : forall x, tanh_approx_d x = tanh_d x.
Proof. intros x. unfold tanh_d. cbv zeta. rewrite <- tanh_approx_is_tanh. reflexivity. Qed.
Lemma tanh_derive : forall x, is_derive tanh_ x (tanh_d x).
Proof.
  intros x. rewrite <- tanh_d_same. apply is_derive_ext with tanh_approx; [exact tanh_approx_is_tanh|]. apply tanh_approx_derive.
Qed.

(** A property of the function near [x] only. *)
Lemma derive_local : forall (f g : R -> R) (x l : R) (d : posreal), (forall y, Rabs (y - x) < d -> f y = g y) -> is_derive f x l -> is_derive g x l.
Proof.
  intros f g x l d H. apply is_derive_ext_loc. exists d. intros y Hy. apply H. apply Hy.
Qed.
Lemma pos_side : forall x, 0 < x -> exists d : posreal, forall y, Rabs (y - x) < d -> 0 < y.
Proof. intros x Hx. exists (mkposreal x Hx). intros y Hy. cbn in Hy. apply Rabs_def2 in Hy. lra. Qed.
Lemma neg_side : forall x, x < 0 -> exists d : posreal, forall y, Rabs (y - x) < d -> y < 0.
Proof. intros x Hx. assert (Hx' : 0 < - x) by lra. exists (mkposreal (- x) Hx'). intros y Hy. cbn in Hy. apply Rabs_def2 in Hy. lra. Qed.

Lemma relu_derive : forall x, x <> 0 -> is_derive relu x (relu_d x).
Proof.
  intros x Hx. unfold relu_d. destruct (Rlt_dec 0 x) as [G|G].
  - destruct (pos_side x G) as [d Hd]. apply (derive_local (fun y => y) relu x 1 d).
    + intros y Hy. specialize (Hd y Hy). unfold relu. destruct (Rlt_dec y 0); [lra|reflexivity].
    + apply (is_derive_id x).
  - destruct (neg_side x ltac:(lra)) as [d Hd]. apply (derive_local (fun _ => 0) relu x 0 d).
    + intros y Hy. specialize (Hd y Hy). unfold relu. destruct (Rlt_dec y 0); [reflexivity|lra].
    + apply (is_derive_const 0 x).
Qed.
Lemma leaky_derive : forall x, x <> 0 -> is_derive leaky x (leaky_d x).
Proof.
  intros x Hx. unfold leaky_d, negative. destruct (Rlt_dec x 0) as [G|G]; cbn [of_bool negb].
  - destruct (neg_side x G) as [d Hd]. apply (derive_local (fun y => leak * y) leaky x _ d).
    + intros y Hy. specialize (Hd y Hy). unfold leaky, negative. destruct (Rlt_dec y 0); [cbn [of_bool negb]; ring|lra].
    + auto_derive; [exact I|ring].
  - destruct (pos_side x ltac:(lra)) as [d Hd]. apply (derive_local (fun y => y) leaky x _ d).
    + intros y Hy. specialize (Hd y Hy). unfold leaky, negative. destruct (Rlt_dec y 0); [lra|cbn [of_bool negb]; ring].
    + auto_derive; [exact I|ring].
Qed.

Lemma sigmoid_approx_derive : forall x, is_derive sigmoid_approx x (/ 2 / (1 + Rabs x) ^ 2).
Proof.
  assert (Hpos : forall x, 0 < x -> is_derive sigmoid_approx x (/ 2 / (1 + Rabs x) ^ 2)).
  { intros x Hx. destruct (pos_side x Hx) as [d Hd]. apply (derive_local (fun y => / 2 * ((y / (1 + y)) + 1)) sigmoid_approx x _ d).
    - intros y Hy. specialize (Hd y Hy). unfold sigmoid_approx. now rewrite Rabs_pos_eq by lra.
    - rewrite Rabs_pos_eq by lra. auto_derive; [lra|]. field. lra. }
  assert (Hneg : forall x, x < 0 -> is_derive sigmoid_approx x (/ 2 / (1 + Rabs x) ^ 2)).
  { intros x Hx. destruct (neg_side x Hx) as [d Hd]. apply (derive_local (fun y => / 2 * ((y / (1 + - y)) + 1)) sigmoid_approx x _ d).
    - intros y Hy. specialize (Hd y Hy). unfold sigmoid_approx. now rewrite Rabs_left by lra.
    - rewrite Rabs_left by lra. auto_derive; [lra|]. field. lra. }
  intros x. destruct (Rtotal_order x 0) as [H|[->|H]]; [now apply Hneg| |now apply Hpos].
  rewrite Rabs_R0. apply is_derive_Reals. intros eps Heps.
  assert (Hd : 0 < eps) by exact Heps. exists (mkposreal eps Hd). intros h Hh Hlt. cbn in Hlt.
  unfold sigmoid_approx. rewrite Rplus_0_l, Rabs_R0.
  replace ((/ 2 * (h / (1 + Rabs h) + 1) - / 2 * (0 / (1 + 0) + 1)) / h - / 2 / (1 + 0) ^ 2) with (- (/ 2 * (Rabs h / (1 + Rabs h)))).
  2: { pose proof (Rabs_pos h). field. split; [lra|exact Hh]. }
  rewrite Rabs_Ropp. pose proof (Rabs_pos_lt h Hh) as Hp.
  assert (Hq : 0 < Rabs h / (1 + Rabs h) <= Rabs h).
  { split; [apply Rdiv_lt_0_compat; lra|]. apply Rmult_le_reg_r with (1 + Rabs h); [lra|]. unfold Rdiv. rewrite Rmult_assoc, Rinv_l by lra.
    pose proof (Rmult_lt_0_compat _ _ Hp Hp). lra. }
  rewrite Rabs_pos_eq by lra. lra.
Qed.

(** ** Ranges and order *)
Lemma inv_order : forall a b, 0 < a -> a < b -> 1 / b < 1 / a.
Proof. intros a b Ha Hab. unfold Rdiv. rewrite !Rmult_1_l. apply Rinv_lt_contravar; [apply Rmult_lt_0_compat; lra|exact Hab]. Qed.
Lemma sigmoid_range : forall x, 0 < sigmoid x < 1.
Proof.
  intros x. unfold sigmoid. pose proof (exp_pos (-1 * x)) as H. split; [apply Rdiv_lt_0_compat; lra|].
  apply Rlt_le_trans with (1 / 1); [apply inv_order; lra|lra].
Qed.
Lemma sigmoid_increasing : forall x y, x < y -> sigmoid x < sigmoid y.
Proof.
  intros x y H. unfold sigmoid. apply inv_order; [pose proof (exp_pos (-1 * y)); lra|].
  apply Rplus_lt_compat_l. apply exp_increasing. lra.
Qed.
Lemma tanh_range : forall x, -1 < tanh x < 1.
Proof. intros x. rewrite <- tanh_approx_is_tanh. pose proof (sigmoid_range (2 * x)). unfold sigmoid in H. unfold tanh_approx. cbv zeta. lra. Qed.
Lemma tanh_increasing : forall x y, x < y -> tanh x < tanh y.
Proof.
  intros x y H. rewrite <- !tanh_approx_is_tanh. pose proof (sigmoid_increasing (2 * x) (2 * y) ltac:(lra)) as G. unfold sigmoid in G.
  unfold tanh_approx. cbv zeta. lra.
Qed.
Lemma soft_range : forall x, -1 < x / (1 + Rabs x) < 1.
Proof.
  intros x. pose proof (Rabs_pos x). pose proof (Rle_abs x). pose proof (Rle_abs (- x)). rewrite Rabs_Ropp in H1.
  split; apply Rmult_lt_reg_r with (1 + Rabs x); try lra; unfold Rdiv; rewrite Rmult_assoc, Rinv_l by lra; lra.
Qed.
Lemma soft_increasing : forall x y, x < y -> x / (1 + Rabs x) < y / (1 + Rabs y).
Proof.
  intros x y H. pose proof (Rabs_pos x) as Hx. pose proof (Rabs_pos y) as Hy.
  apply Rmult_lt_reg_r with (1 + Rabs x); [lra|]. apply Rmult_lt_reg_r with (1 + Rabs y); [lra|].
  replace (x / (1 + Rabs x) * (1 + Rabs x) * (1 + Rabs y)) with (x * (1 + Rabs y)) by (field; lra).
  replace (y / (1 + Rabs y) * (1 + Rabs x) * (1 + Rabs y)) with (y * (1 + Rabs x)) by (field; lra).
  unfold Rabs. destruct (Rcase_abs x), (Rcase_abs y); nra.
Qed.
Lemma leak_bounds : 0 < leak < 1.
Proof. unfold leak. lra. Qed.
