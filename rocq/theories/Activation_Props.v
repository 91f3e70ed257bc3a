(** C46, C47: softmax and the other activation functions, in exact real arithmetic. *)
From Coq Require Import List Arith Bool Lia Reals Lra.
From Coquelicot Require Import Coquelicot.
From Verif Require Import Outcome Tensor_Model Tensor_Spec Scaling_Spec Reduce_Model Reduce_Spec Reduce_Proofs Activation_Model Activation_Proofs Algebra_Proofs MatMul_Proofs.
Import ListNotations.
Local Open Scope R_scope.

(** ** C46 Softmax: for a tensor with at least one element *)
(** Every output is exp of the input over the sum of the exps of all inputs (all rows and channels). *)
Theorem softmax_formula : forall t n m K f, is_tensor t n m K f -> exists u, softmax t = Ok u /\
  is_tensor u n m K (fun r c k => exp (f r c k) / Scaling_Spec.sum (map exp (elements n m K f))).
Proof. exact softmax_tensor. Qed.

Theorem softmax_is_a_distribution : forall t n m K f, is_tensor t n m K f -> (0 < n * m * K)%nat -> exists u g, softmax t = Ok u /\
  is_tensor u n m K g /\ (forall r c k, 0 < g r c k) /\ Scaling_Spec.sum (elements n m K g) = 1.
Proof.
  intros t n m K f Ht Hpos. destruct (softmax_tensor t n m K f Ht) as (u & E & Hu). exists u. eexists. split; [exact E|]. split; [exact Hu|].
  assert (Hp : 0 < Scaling_Spec.sum (map exp (elements n m K f))).
  { apply sum_pos.
    - pose proof (elements_length n m K f) as L. destruct (elements n m K f); [cbn in L; lia|discriminate].
    - intros x Hx. apply in_map_iff in Hx as (y & <- & _). apply exp_pos. }
  cbv beta. split.
  - intros r c k. apply Rdiv_lt_0_compat; [apply exp_pos|exact Hp].
  - rewrite (elements_map n m K f (fun x => exp x / Scaling_Spec.sum (map exp (elements n m K f)))).
    unfold Rdiv. rewrite sum_scale. field. lra.
Qed.

Theorem softmax_shift_invariant : forall t t' n m K f shift, is_tensor t n m K f -> is_tensor t' n m K (fun r c k => f r c k + shift) ->
  exists u u', softmax t = Ok u /\ softmax t' = Ok u' /\ same u u'.
Proof.
  intros t t' n m K f s Ht Ht'. destruct (softmax_tensor t n m K f Ht) as (u & E & Hu). destruct (softmax_tensor t' n m K _ Ht') as (u' & E' & Hu').
  exists u, u'. split; [exact E|]. split; [exact E'|].
  apply (Algebra_Proofs.is_tensor_same u u' n m K (fun r c k => exp (f r c k) / Scaling_Spec.sum (map exp (elements n m K f))) Hu).
  eapply Algebra_Proofs.is_tensor_ext; [exact Hu'|]. intros r c k Hr Hc Hk. cbv beta. rewrite (elements_map n m K f (fun x => x + s)), map_map.
  assert (Es : Scaling_Spec.sum (map (fun x => exp (x + s)) (elements n m K f)) = Scaling_Spec.sum (map exp (elements n m K f)) * exp s).
  { rewrite <- sum_scale. f_equal. apply map_ext. intros x. apply exp_plus. }
  rewrite Es, exp_plus. pose proof (exp_pos s).
  assert (Hp : 0 < Scaling_Spec.sum (map exp (elements n m K f))).
  { apply sum_pos.
    - destruct (elements n m K f) eqn:El; [|discriminate]. pose proof (elements_length n m K f) as L. rewrite El in L. cbn [length] in L.
      symmetry in L. apply Nat.eq_mul_0 in L as [L|L]; [apply Nat.eq_mul_0 in L|]; lia.
    - intros x Hx. apply in_map_iff in Hx as (y & <- & _). apply exp_pos. }
  field. lra.
Qed.

Theorem softmax_keeps_order : forall t n m K f, is_tensor t n m K f -> exists u g, softmax t = Ok u /\ is_tensor u n m K g /\
  forall r c k r' c' k', (r < n -> c < m -> k < K -> r' < n -> c' < m -> k' < K ->
    (f r c k < f r' c' k')%R <-> (g r c k < g r' c' k')%R)%nat.
Proof.
  intros t n m K f Ht. destruct (softmax_tensor t n m K f Ht) as (u & E & Hu). exists u. eexists. split; [exact E|]. split; [exact Hu|].
  intros r c k r' c' k' Hr Hc Hk _ _ _. cbv beta.
  assert (Hp : 0 < Scaling_Spec.sum (map exp (elements n m K f))).
  { apply sum_pos.
    - destruct (elements n m K f) eqn:El; [|discriminate]. pose proof (elements_length n m K f) as L. rewrite El in L. cbn [length] in L.
      symmetry in L. apply Nat.eq_mul_0 in L as [L|L]; [apply Nat.eq_mul_0 in L|]; lia.
    - intros x Hx. apply in_map_iff in Hx as (y & <- & _). apply exp_pos. }
  apply Rinv_0_lt_compat in Hp. unfold Rdiv. split; intros H.
  - apply Rmult_lt_compat_r; [exact Hp|]. now apply exp_increasing.
  - apply Rmult_lt_reg_r in H; [|exact Hp]. now apply exp_lt_inv.
Qed.

(** ** C47 Ranges and order *)
(** The range of each activation and its order, on the elements of the output. *)
Definition in_range_of (a : activation) (y : R) : Prop :=
  match a with
  | Sigmoid | SigmoidApprox | Softmax => 0 < y < 1
  | Tanh | TanhApprox => -1 < y < 1
  | Relu => 0 <= y
  | Linear | Leaky => True
  end.
(** The activations that are flat nowhere. *)
Definition strict (a : activation) : Prop := a <> Relu.
(** Textbook formulas. *)
Definition textbook (a : activation) (x : R) : R :=
  match a with
  | Relu => Rmax 0 x
  | Leaky => Rmax (leak * x) x
  | Sigmoid => exp x / (exp x + 1)
  | SigmoidApprox => (1 + x / (1 + Rabs x)) / 2
  | Tanh | TanhApprox => (exp x - exp (- x)) / (exp x + exp (- x))
  | Linear | Softmax => x
  end.

Lemma textbook_relu : forall x, relu x = textbook Relu x.
Proof. intros x. cbn. unfold relu, Rmax. destruct (Rlt_dec x 0), (Rle_dec 0 x); lra. Qed.
Lemma textbook_leaky : forall x, leaky x = textbook Leaky x.
Proof.
  intros x. cbn. pose proof leak_bounds. unfold leaky, negative, Rmax. destruct (Rlt_dec x 0), (Rle_dec (leak * x) x); cbn [of_bool negb]; nra.
Qed.
Lemma textbook_sigmoid : forall x, sigmoid x = textbook Sigmoid x.
Proof.
  intros x. cbn. unfold sigmoid. replace (-1 * x) with (- x) by ring. rewrite exp_Ropp. pose proof (exp_pos x). field. lra.
Qed.
Lemma textbook_sigmoid_approx : forall x, sigmoid_approx x = textbook SigmoidApprox x.
Proof. intros x. cbn. unfold sigmoid_approx. lra. Qed.
Lemma textbook_tanh : forall x, tanh_ x = textbook Tanh x.
Proof. intros x. cbn. unfold tanh_, tanh, sinh, cosh. pose proof (exp_pos x). pose proof (exp_pos (- x)). field. lra. Qed.

Theorem activation_elementwise : forall a t n m K f, a <> Softmax -> is_tensor t n m K f ->
  exists u, activate a t = Ok u /\ is_tensor u n m K (fun r c k => textbook a (f r c k)).
Proof.
  assert (T : forall g a t n m K f, (forall x, g x = textbook a x) -> is_tensor t n m K f ->
    is_tensor (value_transform g t) n m K (fun r c k => textbook a (f r c k))).
  { intros g a t n m K f H Ht. eapply Algebra_Proofs.is_tensor_ext; [apply transform_tensor; exact Ht|]. intros r c k _ _ _. cbv beta. apply H. }
  intros a t n m K f Ha Ht. destruct a; try easy; cbn [activate]; eexists; (split; [reflexivity|]); try (apply T; [|exact Ht]).
  - exact Ht.
  - exact textbook_relu.
  - exact textbook_leaky.
  - exact textbook_sigmoid.
  - exact textbook_sigmoid_approx.
  - exact textbook_tanh.
  - intros x. rewrite tanh_approx_is_tanh. apply (textbook_tanh x).
Qed.

Theorem activation_range_and_order : forall a, a <> Softmax ->
  (forall x, in_range_of a (textbook a x)) /\
  (forall x y, x <= y -> textbook a x <= textbook a y) /\
  (strict a -> forall x y, x < y -> textbook a x < textbook a y).
Proof.
  assert (Mono : forall a, (forall x y, x < y -> textbook a x < textbook a y) -> forall x y, x <= y -> textbook a x <= textbook a y).
  { intros a H x y [G| ->]; [left; now apply H|right; reflexivity]. }
  assert (Hlin : forall x y, x < y -> textbook Linear x < textbook Linear y) by (intros x y H; exact H).
  assert (Hleaky : forall x y, x < y -> textbook Leaky x < textbook Leaky y).
  { intros x y H. cbn. pose proof leak_bounds as L. unfold Rmax. destruct (Rle_dec (leak * x) x), (Rle_dec (leak * y) y); nra. }
  assert (Hsig : forall x y, x < y -> textbook Sigmoid x < textbook Sigmoid y) by (intros x y; rewrite <- !textbook_sigmoid; apply sigmoid_increasing).
  assert (Happrox : forall x y, x < y -> textbook SigmoidApprox x < textbook SigmoidApprox y).
  { intros x y H. apply soft_increasing in H. cbn. lra. }
  assert (Htanh : forall x y, x < y -> textbook Tanh x < textbook Tanh y) by (intros x y; rewrite <- !textbook_tanh; apply tanh_increasing).
  intros a Ha. destruct a; try easy.
  - split; [|split].
    + intros x. cbn. apply Rmax_l.
    + intros x y H. cbn. now apply Rle_max_compat_l.
    + intros H. now elim H.
  - split; [intros x; exact I|]. split; [now apply Mono|auto].
  - split; [intros x; rewrite <- textbook_sigmoid; apply sigmoid_range|]. split; [now apply Mono|auto].
  - split; [intros x; cbn; pose proof (soft_range x); lra|]. split; [now apply Mono|auto].
  - split; [intros x; rewrite <- textbook_tanh; apply tanh_range|]. split; [now apply Mono|auto].
  - change (textbook TanhApprox) with (textbook Tanh). split; [intros x; rewrite <- textbook_tanh; apply tanh_range|]. split; [now apply Mono|auto].
Qed.

(** The "approximation" of tanh is exactly tanh. *)
Theorem tanh_approx_exact : forall x, tanh_approx x = tanh_ x.
Proof. exact tanh_approx_is_tanh. Qed.

(** ** C47 Derivatives *)
(** The derivative used for training is the derivative of the activation (for relu and leaky relu
    except at 0, where there is none), for every activation but two. *)
(** Partial, C47: all but the approximate sigmoid and softmax, which are refuted. *)
Theorem activation_derivative_partial : forall a, a <> Softmax -> a <> SigmoidApprox -> exists d,
  (forall t n m K f, is_tensor t n m K f -> is_tensor (derivative a t) n m K (fun r c k => d (f r c k))) /\
  forall x, (a = Relu \/ a = Leaky -> x <> 0) -> derivable_pt_lim (textbook a) x (d x).
Proof.
  assert (Ext : forall (g h : R -> R) x l, (forall x, g x = h x) -> is_derive g x l -> derivable_pt_lim h x l).
  { intros g h x l E H. apply is_derive_Reals. eapply is_derive_ext; [exact E|exact H]. }
  intros a H1 H2. destruct a; try easy.
  - exists (fun _ => 1). split.
    + intros t n m K f Ht. destruct Ht as (E1 & E2 & E3 & _). unfold is_tensor. repeat split; auto.
    + intros x _. apply derivable_pt_lim_id.
  - exists relu_d. split; [intros; now apply transform_tensor|]. intros x Hx. eapply Ext; [exact textbook_relu|]. apply relu_derive. auto.
  - exists leaky_d. split; [intros; now apply transform_tensor|]. intros x Hx. eapply Ext; [exact textbook_leaky|]. apply leaky_derive. auto.
  - exists sigmoid_d. split; [intros; now apply transform_tensor|]. intros x _. eapply Ext; [exact textbook_sigmoid|]. apply sigmoid_derive.
  - exists tanh_d. split; [intros; now apply transform_tensor|]. intros x _. eapply Ext; [exact textbook_tanh|]. apply tanh_derive.
  - exists tanh_approx_d. split; [intros; now apply transform_tensor|]. intros x _. change (textbook TanhApprox) with (textbook Tanh).
    eapply Ext; [intros y; rewrite tanh_approx_is_tanh; exact (textbook_tanh y)|]. apply tanh_approx_derive.
Qed.

(** The derivative of the approximated sigmoid is right at 1/2 and -1/2 only. *)
Theorem sigmoid_approx_derivative_refuted : exists d,
  (forall t n m K f, is_tensor t n m K f -> is_tensor (derivative SigmoidApprox t) n m K (fun r c k => d (f r c k))) /\
  forall x, derivable_pt_lim (textbook SigmoidApprox) x (d x) <-> Rabs x = / 2.
Proof.
  exists sigmoid_approx_d. split; [intros; now apply transform_tensor|]. intros x. pose proof (sigmoid_approx_derive x) as H.
  assert (H' : derivable_pt_lim (textbook SigmoidApprox) x (/ 2 / (1 + Rabs x) ^ 2)).
  { apply is_derive_Reals. eapply is_derive_ext; [exact textbook_sigmoid_approx|exact H]. }
  clear H. rename H' into H.
  pose proof (Rabs_pos x) as P.
  assert (E : sigmoid_approx_d x = (/ 4 * (1 + 2 * Rabs x)) / (1 + Rabs x) ^ 2).
  { unfold sigmoid_approx_d. cbv zeta.
    replace (/ 2 * (x / (1 + Rabs x) + 1) * (1 - / 2 * (x / (1 + Rabs x) + 1))) with (/ 4 * ((1 + Rabs x) ^ 2 - x ^ 2) / (1 + Rabs x) ^ 2) by (field; lra).
    rewrite <- (pow2_abs x). f_equal. ring. }
  rewrite E. split.
  - intros G. pose proof (uniqueness_limite _ _ _ _ H G) as U. apply Rmult_eq_reg_r in U; [lra|]. apply Rinv_neq_0_compat. apply pow_nonzero. lra.
  - intros Ha. rewrite Ha in *. replace (/ 4 * (1 + 2 * / 2) / (1 + / 2) ^ 2) with (/ 2 / (1 + / 2) ^ 2) by field. exact H.
Qed.

(** Back-propagation through an activation after a batch: the error times the mean of the derivatives at the
    inputs of the batch. *)
Theorem activation_backward_batch : forall a xs e n m K ds h, xs <> [] -> Forall2 (fun x d => is_tensor (derivative a x) n m K d) xs ds -> is_tensor e n m K h ->
  exists u, activation_backward a xs e = Ok u /\ is_tensor u n m K (fun r c k => Scaling_Spec.sum (map (fun d : nat -> nat -> nat -> R => d r c k) ds) / INR (length xs) * h r c k).
Proof.
  intros a xs e n m K ds h Hx F He. destruct F as [|x d xs ds Hd F]; [contradiction|]. unfold activation_backward.
  assert (G : forall rest ds' first f, Forall2 (fun x d => is_tensor (derivative a x) n m K d) rest ds' -> is_tensor first n m K f ->
    exists u, fold_left (fun acc next => do acc <- acc; add_view rops acc (derivative a next)) rest (Ok first) = Ok u /\ is_tensor u n m K (fun r c k => f r c k + Scaling_Spec.sum (map (fun d : nat -> nat -> nat -> R => d r c k) ds'))).
  { clear. intros rest ds' first f F. revert first f. induction F as [|y g rest ds' Hy F IH]; intros first f Hf.
    - exists first. split; [reflexivity|]. eapply Algebra_Proofs.is_tensor_ext; [exact Hf|]. intros. cbn. ring.
    - cbn [fold_left obind]. destruct (MatMul_Proofs.pointwise_element Rplus first _ n m K f g Hf Hy) as (v & Ev & Hv). unfold add_view at 2. cbn [add rops]. rewrite Ev.
      destruct (IH v _ Hv) as (u & Eu & Hu). exists u. split; [exact Eu|]. eapply Algebra_Proofs.is_tensor_ext; [exact Hu|]. intros. cbn beta. unfold Scaling_Spec.sum. cbn [map fold_right]. ring. }
  destruct (G xs ds _ _ F Hd) as (u & -> & Hu). cbn [obind]. cbv zeta.
  assert (Hv : is_tensor (match xs with [] => u | _ => scalar_divide u (INR (length (x :: xs))) end) n m K (fun r c k => Scaling_Spec.sum (map (fun d : nat -> nat -> nat -> R => d r c k) (d :: ds)) / INR (length (x :: xs)))).
  { destruct F as [|y g xs ds Hy F].
    - eapply Algebra_Proofs.is_tensor_ext; [exact Hu|]. intros. cbn. field.
    - pose proof (transform_tensor (fun v => v / INR (length (x :: y :: xs))) _ _ _ _ _ Hu) as Hv. eapply Algebra_Proofs.is_tensor_ext; [exact Hv|]. intros. reflexivity. }
  destruct (MatMul_Proofs.pointwise_element Rmult _ e n m K _ h Hv He) as (w & Ew & Hw). exists w. split; [exact Ew|exact Hw].
Qed.

(** Back-propagation through an activation for one record is the chain rule. *)
Theorem activation_backward_single : forall a x e n m K f h, a <> Softmax -> is_tensor x n m K f -> is_tensor e n m K h ->
  exists u d, activation_backward a [x] e = Ok u /\ is_tensor (derivative a x) n m K d /\
    is_tensor u n m K (fun r c k => d r c k * h r c k).
Proof.
  intros a x e n m K f h Ha Hx He.
  assert (Hd : exists d, is_tensor (derivative a x) n m K d).
  { destruct a; try easy; cbn [derivative]; try (eexists; apply transform_tensor; exact Hx).
    exists (fun _ _ _ => 1). destruct Hx as (E1 & E2 & E3 & _). unfold is_tensor. repeat split; auto. }
  destruct Hd as [d Hd]. unfold activation_backward. cbn [fold_left obind].
  destruct Hd as (D1 & D2 & D3 & D) eqn:Ed. clear Ed. destruct He as (E1 & E2 & E3 & E4).
  unfold multiply_view, pointwise, same_shape. rewrite D1, D2, D3, E1, E2, E3, !Nat.eqb_refl. cbn [andb].
  eexists. exists d. split; [reflexivity|]. split; [exact Hd|]. unfold is_tensor. cbn [rows cols chans get]. repeat split; auto.
  intros i j l Hi Hj Hl. rewrite D, E4 by assumption. reflexivity.
Qed.

(** ** Examples *)
Definition ex_vec (l : list R) : tensor R := {| rows := 1; cols := length l; chans := 1; get := fun _ c _ => Ok (nth c l 0) |}.
Example ex_vec_tensor : forall l, is_tensor (ex_vec l) 1 (length l) 1 (fun _ c _ => nth c l 0).
Proof. intros l. unfold is_tensor. repeat split. Qed.
Example ex_softmax : exists u, softmax (ex_vec [0; ln 3]) = Ok u /\ get u 0 0 0 = Ok (/ 4) /\ get u 0 1 0 = Ok (3 / 4).
Proof.
  destruct (softmax_formula _ _ _ _ _ (ex_vec_tensor [0; ln 3])) as (u & E & (_ & _ & _ & H)). exists u. split; [exact E|].
  cbn [length] in H. rewrite (H 0%nat 0%nat 0%nat), (H 0%nat 1%nat 0%nat) by lia. cbn. rewrite exp_0, exp_ln by lra. split; f_equal; lra.
Qed.
Example ex_leak : is_tensor (value_transform leaky (ex_vec [-1; 2])) 1 2 1 (fun _ c _ => nth c [- leak; 2] 0).
Proof.
  unfold is_tensor. repeat split. intros i j l Hi Hj Hl. destruct j as [|[|j]]; [| |lia]; cbn; f_equal; unfold leaky, negative.
  - destruct (Rlt_dec (-1) 0); cbn; lra.
  - destruct (Rlt_dec 2 0); cbn; lra.
Qed.

Print Assumptions softmax_formula.
Print Assumptions softmax_is_a_distribution.
Print Assumptions softmax_shift_invariant.
Print Assumptions softmax_keeps_order.
Print Assumptions activation_elementwise.
Print Assumptions activation_range_and_order.
Print Assumptions tanh_approx_exact.
Print Assumptions activation_derivative_partial.
Print Assumptions sigmoid_approx_derivative_refuted.
Print Assumptions activation_backward_single.
Print Assumptions activation_backward_batch.
