(** Proofs for C104: along a path of inputs and parameters, each layer sends back the errors that the chain rule asks for. *)
From Coquelicot Require Import Coquelicot.
From Coq Require Import List Arith Bool NArith Reals Lia Lra.
From Verif Require Import Outcome Tensor_Model Tensor_Spec Reduce_Model Activation_Model Layer_Model Layer_Spec Graph_Model Net_Model Net_Spec NetGrad_Spec.
From Verif Require Import Algebra_Proofs MatMul_Proofs Layer_Proofs Activation_Proofs Net_Proofs Net_Vertex.
From Verif Require ModelFile_Model Loss_Model Layer_Props Activation_Props.
Import ListNotations.
Local Open Scope R_scope.

(** ** Derivatives at 0 *)
Notation D0 f l := (is_derive (f : R -> R) (0 : R) (l : R)).
Lemma D_ext : forall (f g : R -> R) l, (forall s, f s = g s) -> D0 f l -> D0 g l.
Proof. intros f g l E H. eapply is_derive_ext; [exact E|exact H]. Qed.
Lemma D_val : forall (f : R -> R) l l', D0 f l -> l = l' -> D0 f l'.
Proof. intros f l l' H <-. exact H. Qed.
Lemma D_const : forall a : R, D0 (fun _ => a) 0.
Proof. intros a. apply (is_derive_const (K := R_AbsRing) (V := R_NormedModule)). Qed.
Lemma D_add : forall (f g : R -> R) l m, D0 f l -> D0 g m -> D0 (fun s => f s + g s) (l + m).
Proof. intros f g l m Hf Hg. apply (is_derive_plus (K := R_AbsRing) (V := R_NormedModule) f g 0 l m Hf Hg). Qed.
Lemma D_mul : forall (f g : R -> R) l m, D0 f l -> D0 g m -> D0 (fun s => f s * g s) (l * g 0 + f 0 * m).
Proof. intros f g l m Hf Hg. apply (is_derive_mult f g 0 l m Hf Hg). intros n k. apply Rmult_comm. Qed.
Lemma D_scale : forall a (f : R -> R) l, D0 f l -> D0 (fun s => a * f s) (a * l).
Proof. intros a f l H. apply (D_val _ (0 * f 0 + a * l)); [apply (D_mul (fun _ => a) f 0 l (D_const a) H)|ring]. Qed.
Lemma D_comp : forall (h f : R -> R) l m, is_derive h (f 0) m -> D0 f l -> D0 (fun s => h (f s)) (m * l).
Proof. intros h f l m Hh Hf. eapply D_val; [apply (is_derive_comp h f 0 m l Hh Hf)|]. unfold scal. cbn. unfold mult. cbn. ring. Qed.
Lemma D_sum : forall n (f : nat -> R -> R) l, (forall i, (i < n)%nat -> D0 (f i) (l i)) -> D0 (fun s => SumR n (fun i => f i s)) (SumR n l).
Proof.
  induction n as [|n IH]; intros f l H; cbn [Sum]; [apply D_const|]. apply (D_add (fun s => SumR n (fun i => f i s)) (f n)); [apply IH; intros; apply H; lia|apply H; lia].
Qed.
Lemma D_total : forall {X} (f : X -> R -> R) g l, (forall x, In x l -> D0 (f x) (g x)) -> D0 (fun s => total (fun x => f x s) l) (total g l).
Proof.
  intros X f g l. unfold total. induction l as [|x l IH]; intros H; cbn [fold_right]; [apply D_const|]. apply (D_add (f x) (fun s => fold_right (fun x0 s0 => f x0 s + s0) 0 l)); [apply H; now left|apply IH; intros; apply H; now right].
Qed.

(** ** Paths of tensors *)
Notation fn := (nat -> nat -> nat -> R).
Notation path := (R -> T).
Definition slope (X : path) : fn := fun i j k => Derive (fun s => entry (X s) i j k) 0.
Definition inside (s : shape) (i j k : nat) : Prop := let '(r, c, l) := s in (i < r /\ j < c /\ k < l)%nat.
Definition curve (X : path) (s : shape) : Prop := (forall a, shaped (X a) s) /\ forall i j k, inside s i j k -> ex_derive (fun a => entry (X a) i j k) 0.
Lemma entry_is : forall t r c k f i j l, is_tensor t r c k f -> (i < r)%nat -> (j < c)%nat -> (l < k)%nat -> entry t i j l = f i j l.
Proof. intros t r c k f i j l (_ & _ & _ & H) Hi Hj Hl. unfold entry. now rewrite H. Qed.
Lemma shaped_entry : forall t r c k, shaped t (r, c, k) -> is_tensor t r c k (entry t).
Proof. intros t r c k [f H]. eapply is_tensor_ext; [exact H|]. intros i j l Hi Hj Hl. symmetry. eapply entry_is; eauto. Qed.
Lemma curve_slope : forall X s i j k, curve X s -> inside s i j k -> D0 (fun a => entry (X a) i j k) (slope X i j k).
Proof. intros X s i j k [_ H] Hi. unfold slope. apply Derive_correct. now apply H. Qed.
(** A path given by the elements. *)
Lemma curve_of : forall (X : path) r c k (f : R -> fn) (df : fn), (forall a, is_tensor (X a) r c k (f a)) -> (forall i j l, (i < r)%nat -> (j < c)%nat -> (l < k)%nat -> D0 (fun a => f a i j l) (df i j l)) ->
  curve X (r, c, k) /\ forall i j l, (i < r)%nat -> (j < c)%nat -> (l < k)%nat -> slope X i j l = df i j l.
Proof.
  intros X r c k f df H HD.
  assert (Q : forall i j l, (i < r)%nat -> (j < c)%nat -> (l < k)%nat -> D0 (fun a => entry (X a) i j l) (df i j l)).
  { intros i j l Hi Hj Hl. eapply D_ext; [|apply HD; assumption]. intros a. symmetry. eapply entry_is; [apply H|exact Hi|exact Hj|exact Hl]. }
  split.
  - split; [intros a; eexists; apply H|]. intros i j l (Hi & Hj & Hl). eexists. now apply Q.
  - intros i j l Hi Hj Hl. unfold slope. apply is_derive_unique. now apply Q.
Qed.
Lemma curve_tensor : forall X r c k a, curve X (r, c, k) -> is_tensor (X a) r c k (entry (X a)).
Proof. intros X r c k a [H _]. apply shaped_entry, H. Qed.
Lemma curve_const : forall t s, shaped t s -> curve (fun _ => t) s /\ forall i j k, slope (fun _ => t) i j k = 0.
Proof.
  intros t s H. assert (Z : forall i j k, D0 (fun _ => entry t i j k) 0) by (intros; apply D_const). split; [|intros; unfold slope; apply is_derive_unique, Z].
  split; [auto|]. intros i j k _. eexists. apply Z.
Qed.

(** Sum of the products of an error and the slopes. *)
Definition pair (s : shape) (e : T) (dx : fn) : R := over s (entry e) dx.
Fixpoint pairs (ss : list shape) (es : list T) (dxs : list fn) : R :=
  match ss, es, dxs with s :: ss, e :: es, dx :: dxs => pair s e dx + pairs ss es dxs | _, _, _ => 0 end.
Definition pair_all (ss : list shape) (es : list T) (dx : fn) : R := total (fun se => pair (fst se) (snd se) dx) (combine ss es).
Lemma pair_is : forall e r c k f dx, is_tensor e r c k f -> pair (r, c, k) e dx = dot r c k f dx.
Proof. intros e r c k f dx H. unfold pair, over. apply dot_ext. intros i j l Hi Hj Hl. split; [eapply entry_is; eauto|reflexivity]. Qed.
Lemma pair_ext : forall r c k e dx dx', (forall i j l, (i < r)%nat -> (j < c)%nat -> (l < k)%nat -> dx i j l = dx' i j l) -> pair (r, c, k) e dx = pair (r, c, k) e dx'.
Proof. intros r c k e dx dx' H. unfold pair, over. apply dot_ext. auto. Qed.
Lemma total_app : forall {X} (f : X -> R) l m, total f (l ++ m) = total f l + total f m.
Proof. intros X f l m. unfold total. induction l as [|x l IH]; cbn [app fold_right]; [ring|]. rewrite IH. ring. Qed.
Lemma pair_all_app : forall ss ss' es es' dx, length ss = length es -> pair_all (ss ++ ss') (es ++ es') dx = pair_all ss es dx + pair_all ss' es' dx.
Proof.
  intros ss ss' es es' dx. unfold pair_all. revert es. induction ss as [|s ss IH]; intros [|e es] H; try discriminate; cbn [app combine]; [unfold total at 2; cbn; ring|]. injection H as H. specialize (IH es H). unfold total in *. cbn [fold_right]. rewrite IH. ring.
Qed.

Definition got (o : outcome T) : T := match o with Ok t => t | _ => {| rows := 0; cols := 0; chans := 0; get := fun _ _ _ => UB |} end.

(** ** One layer *)
Section Layer.
Context (v : vertex) (P : R -> params) (random : fn).
Context (dw db : fn).
(** The parameters move with the slopes [dw] and [db]. *)
Definition weights_move : Prop := curve (fun a => weights (P a)) (weights_shape v) /\ forall i j k, inside (weights_shape v) i j k -> slope (fun a => weights (P a)) i j k = dw i j k.
Definition biases_move : Prop := curve (fun a => biases (P a)) (output_shape v) /\ forall i j k, inside (output_shape v) i j k -> slope (fun a => biases (P a)) i j k = db i j k.
Definition layer_moves (l : layer) : Prop := match l with Full => weights_move | Bias => biases_move | _ => True end.
Definition layer_plain (l : layer) : Prop :=
  match l with
  | Normalize | Conv => False
  | Activate => ModelFile_Model.activation_type v <> ModelFile_Model.softmax /\ ModelFile_Model.activation_type v <> ModelFile_Model.sigmoidApprox
  | _ => True
  end.
(** What regularization adds to the errors of the weights. *)
Definition reg (l : layer) : R := match l with Full => strength_of (strength v) * over (weights_shape v) (entry (weights (P 0))) dw | _ => 0 end.
Definition start (xs : list path) (a : R) : list T := map (fun X => X a) xs.

Definition chain_rule (l : layer) (xs : list path) (ss : list shape) (s : shape) (Y : path) : Prop :=
  (forall a, layer_forward v (P a) random true l (start xs a) = Ok (Y a)) /\ curve Y s /\
  forall head e es dW dB, layer_sends v head l ss -> shaped e s -> layer_backward v (P 0) random l (start xs 0) e = Ok (es, (dW, dB)) ->
    pair s e (slope Y) + reg l = pairs ss es (map slope xs) + pair_all (fst (layer_changes v l)) dW dw + pair_all (snd (layer_changes v l)) dB db.

Lemma one_curve : forall xs s, Forall2 curve xs [s] -> exists X, xs = [X] /\ curve X s.
Proof. intros xs s H. inversion H as [|X ? ? ? HX H']; subst. inversion H'; subst. eauto. Qed.
Lemma pairs_one : forall s e dx, pairs [s] [e] [dx] = pair s e dx.
Proof. intros. cbn. ring. Qed.
Lemma pair_all_nil : forall dx, pair_all [] [] dx = 0.
Proof. reflexivity. Qed.
Lemma pair_all_one : forall s e dx, pair_all [s] [e] dx = pair s e dx.
Proof. intros. unfold pair_all, total. cbn. ring. Qed.

Lemma full_rule : forall xs ss s, Forall2 curve xs ss -> layer_shape v Full ss = Some s -> weights_move -> exists Y, chain_rule Full xs ss s Y.
Proof.
  intros xs ss s H E [HW SW]. cbn [layer_shape] in E. destruct ss as [|[[r c] k] [|]]; try discriminate. apply one_curve in H as (X & -> & HX).
  destruct (Nat.eqb_spec c (volume (input_shape v))) as [Ec|]; [|discriminate]. destruct (Nat.eqb_spec k 1) as [Ek|]; [|discriminate]. cbn [andb] in E. injection E as <-. subst c k.
  unfold weights_shape in *. set (I := volume (input_shape v)) in *. set (O := volume (output_shape v)) in *.
  pose proof (fun a => curve_tensor _ _ _ _ a HX) as TX. pose proof (fun a => curve_tensor _ _ _ _ a HW) as TW. cbn beta in TW.
  assert (FW : forall a, exists y, layer_forward v (P a) random true Full (start [X] a) = Ok y /\ is_tensor y r O 1 (fun i c k => SumR I (fun j => entry (X a) i j k * entry (weights (P a)) j c k))).
  { intros a. destruct (multiply_element rops (X a) (weights (P a)) r I O 1 _ _ (TX a) (TW a)) as (y & Ey & Hy). exists y. cbn [layer_forward start map fc_forward new_fc fc_weights]. rewrite Ey. cbn [obind snd]. split; [reflexivity|exact Hy]. }
  exists (fun a => got (layer_forward v (P a) random true Full (start [X] a))).
  assert (TY : forall a, is_tensor (got (layer_forward v (P a) random true Full (start [X] a))) r O 1 (fun i c k => SumR I (fun j => entry (X a) i j k * entry (weights (P a)) j c k))).
  { intros a. destruct (FW a) as (y & -> & Hy). exact Hy. }
  destruct (curve_of _ r O 1%nat _ (fun i c k => SumR I (fun j => slope X i j k * entry (weights (P 0)) j c k + entry (X 0) i j k * dw j c k)) TY) as [CY SY].
  { intros i c k Hi Hc Hk. apply (D_sum I (fun j a => entry (X a) i j k * entry (weights (P a)) j c k)). intros j Hj. apply D_mul; [apply (curve_slope X _ _ _ _ HX); now repeat split|].
    rewrite <- (SW j c k) by (now repeat split). apply (curve_slope _ _ _ _ _ HW). now repeat split. }
  split; [intros a; destruct (FW a) as (y & -> & _); reflexivity|]. split; [exact CY|].
  intros head e es dW dB _ Se Eb. cbn [start map] in *. pose proof (shaped_entry _ _ _ _ Se) as Te.
  destruct (fc_record (new_fc v (P 0)) (X 0) e r I O 1 (entry (weights (P 0))) (entry (X 0)) (entry e) eq_refl (TW 0) (TX 0) Te) as (s1 & y & back & we & A1 & _ & A3 & A4 & A5).
  cbn [layer_backward] in Eb. rewrite A1 in Eb. cbn [obind fst] in Eb. rewrite A3 in Eb. cbn [obind fst snd weights_errors new_fc app] in Eb. injection Eb as <- <- <-.
  cbn [layer_changes fst snd]. fold I O. rewrite pairs_one, pair_all_one, pair_all_nil. rewrite (pair_ext _ _ _ _ _ _ SY). rewrite (pair_is _ _ _ _ _ _ Te), (pair_is _ _ _ _ _ _ A4), (pair_is _ _ _ _ _ _ A5).
  cbn [reg]. unfold over, weights_shape. fold I O. cbn [new_fc l2].
  rewrite (dot_ext r O 1 (entry e) (fun i c k => SumR I (fun j => slope X i j k * entry (weights (P 0)) j c k + entry (X 0) i j k * dw j c k)) (entry e)
     (fun i c k => SumR I (fun j => slope X i j k * entry (weights (P 0)) j c k) + SumR I (fun j => entry (X 0) i j k * dw j c k))) by (intros; split; [reflexivity|apply SumR_add]).
  rewrite dot_add_r, dot_add_l, dot_product_input, dot_product_weights. rewrite (dot_scale_l _ _ _ (strength_of (strength v))). ring.
Qed.
Lemma bias_rule : forall xs ss s, Forall2 curve xs ss -> layer_shape v Bias ss = Some s -> biases_move -> exists Y, chain_rule Bias xs ss s Y.
Proof.
  intros xs ss s H E [HB SB]. cbn [layer_shape] in E. destruct ss as [|s0 [|]]; try discriminate. apply one_curve in H as (X & -> & HX). destruct (shape_eqb s0 _) eqn:Ea in E; [|discriminate]. injection E as <-. apply shape_eqb_eq in Ea. subst s0.
  assert (RC : forall l, reg l = reg l) by reflexivity. clear RC. unfold biases_move in *. unfold chain_rule. cbn [layer_changes fst snd]. destruct (output_shape v) as [[r c] k] eqn:Eo.
  pose proof (fun a => curve_tensor _ _ _ _ a HX) as TX. pose proof (fun a => curve_tensor _ _ _ _ a HB) as TB. cbn beta in TB.
  assert (FW : forall a, exists y, layer_forward v (P a) random true Bias (start [X] a) = Ok y /\ is_tensor y r c k (fun i j l => entry (X a) i j l + entry (biases (P a)) i j l)).
  { intros a. destruct (pointwise_element Rplus (X a) (biases (P a)) r c k _ _ (TX a) (TB a)) as (y & Ey & Hy). exists y. cbn [layer_forward start map bias_forward new_bias bias_values]. unfold add_view. cbn [add rops]. rewrite Ey. split; [reflexivity|exact Hy]. }
  exists (fun a => got (layer_forward v (P a) random true Bias (start [X] a))).
  assert (TY : forall a, is_tensor (got (layer_forward v (P a) random true Bias (start [X] a))) r c k (fun i j l => entry (X a) i j l + entry (biases (P a)) i j l)).
  { intros a. destruct (FW a) as (y & -> & Hy). exact Hy. }
  destruct (curve_of _ r c k _ (fun i j l => slope X i j l + db i j l) TY) as [CY SY].
  { intros i j l Hi Hj Hl. apply (D_add (fun a => entry (X a) i j l) (fun a => entry (biases (P a)) i j l)); [apply (curve_slope X _ _ _ _ HX); now repeat split|].
    rewrite <- (SB i j l) by (now repeat split). apply (curve_slope _ _ _ _ _ HB). now repeat split. }
  split; [intros a; destruct (FW a) as (y & -> & _); reflexivity|]. split; [exact CY|].
  intros head e es dW dB _ Se Eb. cbn [start map] in *. cbn [layer_backward bias_backward fst snd bias_errors new_bias app] in Eb. injection Eb as <- <- <-.
  rewrite pairs_one, pair_all_one, pair_all_nil. rewrite (pair_ext _ _ _ _ _ _ SY). cbn [reg]. unfold pair, over. rewrite dot_add_r. ring.
Qed.
Lemma dropout_rule : forall xs ss s, Forall2 curve xs ss -> layer_shape v Dropout ss = Some s -> exists Y, chain_rule Dropout xs ss s Y.
Proof.
  intros xs ss s H E. cbn [layer_shape] in E. destruct ss as [|s0 [|]]; try discriminate. apply one_curve in H as (X & -> & HX). injection E as <-. destruct s0 as [[r c] k].
  pose proof (fun a => curve_tensor _ _ _ _ a HX) as TX.
  assert (FW : forall a, exists y, layer_forward v (P a) random true Dropout (start [X] a) = Ok y /\ is_tensor y r c k (entry (X a))).
  { intros a. destruct (Layer_Props.dropout_drops_nothing_refuted (ModelFile_Model.dropout_rate v) random (X a) (X a) r c k _ _ (TX a) (TX a)) as (y & mask & back & E1 & H1 & _). exists y. cbn [layer_forward start map]. rewrite E1. split; [reflexivity|exact H1]. }
  exists (fun a => got (layer_forward v (P a) random true Dropout (start [X] a))).
  assert (TY : forall a, is_tensor (got (layer_forward v (P a) random true Dropout (start [X] a))) r c k (entry (X a))).
  { intros a. destruct (FW a) as (y & -> & Hy). exact Hy. }
  destruct (curve_of _ r c k _ (slope X) TY) as [CY SY].
  { intros i j l Hi Hj Hl. apply (curve_slope X _ _ _ _ HX). now repeat split. }
  split; [intros a; destruct (FW a) as (y & -> & _); reflexivity|]. split; [exact CY|].
  intros head e es dW dB _ Se Eb. cbn [start map] in *. pose proof (shaped_entry _ _ _ _ Se) as Te. cbn [layer_backward] in Eb.
  destruct (Layer_Props.dropout_drops_nothing_refuted (ModelFile_Model.dropout_rate v) random (X 0) e r c k _ _ (TX 0) Te) as (y & mask & back & E1 & _ & E2 & H2).
  rewrite E1 in Eb. cbn [obind snd] in Eb. rewrite E2 in Eb. cbn [obind] in Eb. injection Eb as <- <- <-.
  cbn [layer_changes fst snd reg]. rewrite pairs_one, !pair_all_nil. rewrite (pair_ext _ _ _ _ _ _ SY). rewrite (pair_is _ _ _ _ _ _ Te), (pair_is _ _ _ _ _ _ H2). ring.
Qed.
Lemma activate_rule : forall xs ss s, Forall2 curve xs ss -> layer_shape v Activate ss = Some s -> layer_plain Activate ->
  (kinked v -> forall X, In X xs -> forall i j k, inside s i j k -> entry (X 0) i j k <> 0) -> exists Y, chain_rule Activate xs ss s Y.
Proof.
  intros xs ss s H E [N1 N2] HK. cbn [layer_shape] in E. destruct ss as [|s0 [|]]; try discriminate. apply one_curve in H as (X & -> & HX). injection E as <-. destruct s0 as [[r c] k].
  pose proof (fun a => curve_tensor _ _ _ _ a HX) as TX. set (a := activation_of (ModelFile_Model.activation_type v)).
  assert (A1 : a <> Softmax) by (unfold a; destruct (ModelFile_Model.activation_type v); cbn; congruence). assert (A2 : a <> SigmoidApprox) by (unfold a; destruct (ModelFile_Model.activation_type v); cbn; congruence).
  assert (A3 : a = Relu \/ a = Leaky -> kinked v) by (unfold a, kinked; destruct (ModelFile_Model.activation_type v); cbn; intros [|]; try discriminate; auto).
  destruct (Activation_Props.activation_derivative_partial a A1 A2) as (dv & Dt & Dd).
  assert (FW : forall b, exists y, layer_forward v (P b) random true Activate (start [X] b) = Ok y /\ is_tensor y r c k (fun i j l => Activation_Props.textbook a (entry (X b) i j l))).
  { intros b. destruct (Activation_Props.activation_elementwise a (X b) r c k _ A1 (TX b)) as (y & Ey & Hy). exists y. split; [exact Ey|exact Hy]. }
  exists (fun b => got (layer_forward v (P b) random true Activate (start [X] b))).
  assert (TY : forall b, is_tensor (got (layer_forward v (P b) random true Activate (start [X] b))) r c k (fun i j l => Activation_Props.textbook a (entry (X b) i j l))).
  { intros b. destruct (FW b) as (y & -> & Hy). exact Hy. }
  destruct (curve_of _ r c k _ (fun i j l => dv (entry (X 0) i j l) * slope X i j l) TY) as [CY SY].
  { intros i j l Hi Hj Hl. apply (D_comp (Activation_Props.textbook a) (fun b => entry (X b) i j l)); [|apply (curve_slope X _ _ _ _ HX); now repeat split].
    apply is_derive_Reals, Dd. intros Ha. apply (HK (A3 Ha) X (or_introl eq_refl)). now repeat split. }
  split; [intros b; destruct (FW b) as (y & -> & _); reflexivity|]. split; [exact CY|].
  intros head e es dW dB _ Se Eb. cbn [start map] in *. pose proof (shaped_entry _ _ _ _ Se) as Te. cbn [layer_backward activation_backward fold_left obind] in Eb. fold a in Eb.
  destruct (pointwise_element Rmult _ e r c k _ _ (Dt _ _ _ _ _ (TX 0)) Te) as (u & Eu & Hu). unfold multiply_view in Eb. cbn [mul rops] in Eb. rewrite Eu in Eb. cbn [obind] in Eb. injection Eb as <- <- <-.
  cbn [layer_changes fst snd reg]. rewrite pairs_one, !pair_all_nil. rewrite (pair_ext _ _ _ _ _ _ SY). rewrite (pair_is _ _ _ _ _ _ Te), (pair_is _ _ _ _ _ _ Hu).
  transitivity (dot r c k (entry e) (fun i j l => dv (entry (X 0) i j l) * slope X i j l)); [ring|]. unfold dot. rewrite !Rplus_0_r. apply SumR_ext. intros l _. apply SumR_ext. intros i _. apply SumR_ext. intros j _. ring.
Qed.

Lemma empty_dot : forall n m K f g, (n = 0 \/ m = 0)%nat -> dot n m K f g = 0.
Proof.
  intros n m K f g H. unfold dot. apply (Sum_zero rops Ropp rring). intros k _. destruct H as [-> | ->]; [reflexivity|]. apply (Sum_zero rops Ropp rring). intros r _. reflexivity.
Qed.
Lemma flatten_rule : forall xs ss s, Forall2 curve xs ss -> layer_shape v Flatten ss = Some s -> Forall one_row_or_channel ss -> exists Y, chain_rule Flatten xs ss s Y.
Proof.
  intros xs ss s H E Q. cbn [layer_shape] in E. destruct ss as [|s0 [|]]; try discriminate. apply one_curve in H as (X & -> & HX). injection E as <-. destruct s0 as [[r c] k]. inversion Q as [|? ? Q1 _]; subst. cbn in Q1. clear Q.
  pose proof (fun a => curve_tensor _ _ _ _ a HX) as TX. assert (RX : forall a, rows (X a) = r /\ cols (X a) = c) by (intros a; destruct (TX a) as (-> & -> & _); auto).
  assert (FW : forall a, layer_forward v (P a) random true Flatten (start [X] a) = Ok (if (r =? 1)%nat then X a else row_flatten (X a))).
  { intros a. cbn [layer_forward start map flatten_forward obind fst]. destruct (RX a) as [-> _]. reflexivity. }
  exists (fun a => if (r =? 1)%nat then X a else row_flatten (X a)). unfold chain_rule, flattened. destruct (Nat.eqb_spec r 1) as [Er|Er].
  - split; [exact FW|]. split; [exact HX|]. intros head e es dW dB _ Se Eb. cbn [start map] in *. cbn [layer_backward flatten_forward obind snd] in Eb. unfold flatten_backward in Eb. pose proof (shaped_rows _ _ _ _ Se) as (R1 & R2 & _).
    destruct (RX 0) as [X1 X2]. rewrite X1, X2, R1, R2, !Nat.eqb_refl in Eb. cbn [andb obind] in Eb. injection Eb as <- <- <-. cbn [layer_changes fst snd reg]. rewrite pairs_one, !pair_all_nil. unfold slope. ring.
  - destruct Q1 as [Q1|Q1]; [contradiction|]. subst k. rewrite Nat.mul_1_r.
    assert (Z : (r = 0 \/ c = 0)%nat \/ (0 < r /\ 0 < c)%nat) by lia. destruct Z as [Z|[Z1 Z2]].
    + assert (Z' : (r * c = 0)%nat) by nia. split; [exact FW|]. split.
      * split; [intros a; rewrite <- (Nat.mul_1_r (r * c)); apply shaped_flatten, HX|]. intros i j l (_ & Hj & _). lia.
      * intros head e es dW dB _ Se Eb. cbn [start map] in *. cbn [layer_backward flatten_forward obind snd] in Eb. destruct (flatten_backward _ e) as [u| |]; cbn [obind] in Eb; try discriminate. injection Eb as <- <- <-.
        cbn [layer_changes fst snd reg]. rewrite pairs_one, !pair_all_nil. unfold pair, over. rewrite !empty_dot by lia. ring.
    + assert (TY : forall a, is_tensor (row_flatten (X a)) 1 (r * c) 1 (fun _ i _ => entry (X a) (i / c)%nat (i mod c)%nat 0%nat)).
      { intros a. destruct (Layer_Props.flatten_gradient_partial (X a) (uniform 1 (r * c) 1 0) r c _ (fun _ _ _ => 0) Z1 Z2 (TX a)) as (u & sh & _ & _ & Eu & U & _); [repeat split|]. unfold flatten_forward in Eu. destruct (RX a) as [X1 _]. rewrite X1 in Eu.
        destruct (Nat.eqb_spec r 1); [contradiction|]. injection Eu as <- _. exact U. }
      destruct (curve_of _ 1%nat (r * c)%nat 1%nat _ (fun _ i _ => slope X (i / c)%nat (i mod c)%nat 0%nat) TY) as [CY SY].
      { intros i j l Hi Hj Hl. apply (curve_slope X _ _ _ _ HX). repeat split; [apply Nat.div_lt_upper_bound; lia|apply Nat.mod_upper_bound; lia|lia]. }
      split; [exact FW|]. split; [exact CY|]. intros head e es dW dB _ Se Eb. cbn [start map] in *. pose proof (shaped_entry _ _ _ _ Se) as Te.
      set (x' := {| rows := r; cols := c; chans := 1; get := fun i j l => Ok (slope X i j l) |} : T). assert (TX' : is_tensor x' r c 1 (slope X)) by (repeat split).
      destruct (Layer_Props.flatten_gradient_partial x' e r c _ _ Z1 Z2 TX' Te) as (u & sh & back & b & Eu & _ & E2 & Tb & DE). assert (sh = (r, c)) as -> by (unfold flatten_forward in Eu; now injection Eu as _ <-).
      cbn [layer_backward flatten_forward obind snd] in Eb. destruct (RX 0) as [X1 X2]. rewrite X1, X2, E2 in Eb. cbn [obind] in Eb. injection Eb as <- <- <-.
      cbn [layer_changes fst snd reg]. rewrite pairs_one, !pair_all_nil. rewrite (pair_ext _ _ _ _ _ _ SY), (pair_is _ _ _ _ _ _ Te), (pair_is _ _ _ _ _ _ Tb), DE. ring.
Qed.

(** The parts of a concatenation at one point of the path. *)
Definition parts_at (xs : list path) (ss : list shape) (f : path -> fn) : list (nat * fn) := map (fun xs => (snd (fst (snd xs)), f (fst xs))) (combine xs ss).
Lemma parts_width : forall xs ss f, length xs = length ss -> map fst (parts_at xs ss f) = map (fun s : shape => snd (fst s)) ss.
Proof. intros xs ss f. unfold parts_at. revert ss. induction xs as [|X xs IH]; intros [|s ss] E; try discriminate; [reflexivity|]. injection E as E. cbn [combine map fst snd]. now rewrite (IH ss E). Qed.
Lemma parts_tensors : forall xs ss r k a, Forall2 curve xs ss -> (forall s, In s ss -> fst (fst s) = r /\ snd s = k) -> Forall2 (fun t p => is_tensor t r (fst p) k (snd p)) (start xs a) (parts_at xs ss (fun X => entry (X a))).
Proof.
  intros xs ss r k a H. unfold parts_at, start. induction H as [|X [[r' c] k'] xs ss HX H IH]; intros Q; [constructor|]. cbn [combine map fst snd]. destruct (Q _ (or_introl eq_refl)) as [Q1 Q2]. cbn in Q1, Q2. subst r' k'.
  constructor; [|apply IH; intros; apply Q; now right]. cbn [fst snd]. now apply curve_tensor.
Qed.
Lemma beside_slope : forall xs ss r k, Forall2 curve xs ss -> (forall s, In s ss -> fst (fst s) = r /\ snd s = k) -> forall i j l, (i < r)%nat -> (j < total_width ss)%nat -> (l < k)%nat ->
  D0 (fun a => beside (parts_at xs ss (fun X => entry (X a))) i j l) (beside (parts_at xs ss slope) i j l).
Proof.
  intros xs ss r k H. unfold parts_at. induction H as [|X [[r' c] k'] xs ss HX H IH]; intros Q i j l Hi Hj Hl; [cbn in Hj; lia|]. cbn [combine map fst snd beside]. destruct (Q _ (or_introl eq_refl)) as [Q1 Q2]. cbn in Q1, Q2. subst r' k'.
  cbn [total_width fold_right fst snd] in Hj. fold (total_width ss) in Hj. destruct (Nat.ltb_spec j c).
  - apply (curve_slope X _ _ _ _ HX). now repeat split.
  - apply IH; [intros; apply Q; now right|exact Hi|lia|exact Hl].
Qed.
Lemma pairs_parts : forall r k bs errs, Forall2 (fun b q => is_tensor b r (fst q) k (snd q)) bs errs -> forall (xs : list path) ss, length xs = length ss -> map fst errs = map (fun s : shape => snd (fst s)) ss -> (forall s, In s ss -> fst (fst s) = r /\ snd s = k) ->
  total (fun p => dot r (fst (fst p)) k (snd (fst p)) (snd (snd p))) (combine errs (parts_at xs ss slope)) = pairs ss bs (map slope xs).
Proof.
  intros r k bs errs H. unfold parts_at, total. induction H as [|b [w e] bs errs Hb H IH]; intros xs [|s ss] L E Q; try discriminate.
  - destruct xs; [reflexivity|discriminate].
  - destruct xs as [|X xs]; [discriminate|]. injection L as L. cbn [map fst] in E. injection E as -> E. destruct (Q _ (or_introl eq_refl)) as [Q1 Q2]. cbn [combine map fst snd fold_right pairs]. rewrite (IH xs ss L E) by (intros; apply Q; now right).
    f_equal. destruct s as [[r' c] k']. cbn in Q1, Q2. subst r' k'. cbn [fst snd] in *. symmetry. now apply pair_is.
Qed.
Lemma concat_rule : forall xs ss s, Forall2 curve xs ss -> layer_shape v Concat ss = Some s -> layer_sends v false Concat ss -> exists Y, chain_rule Concat xs ss s Y.
Proof.
  intros xs ss s H E [SB1 SB2]. cbn [layer_shape] in E. destruct ss as [|[[r c] k] [|s1 ss0]]; try discriminate. destruct (forallb _ _) eqn:Ea in E; [|discriminate]. pose proof (same_rows _ _ _ Ea) as Q. clear Ea.
  set (ss := (r, c, k) :: s1 :: ss0) in *. assert (Es : s = (r, total_width ss, k)) by congruence. clear E. subst s. assert (L2 : (2 <= length ss)%nat) by (unfold ss; cbn; lia). clearbody ss. clear c s1 ss0. pose proof (Forall2_len _ _ _ H) as L.
  assert (W : forall f, width (parts_at xs ss f) = total_width ss) by (intros f; apply width_total, parts_width, L).
  assert (FW : forall a, exists y, layer_forward v (P a) random true Concat (start xs a) = Ok y /\ is_tensor y r (total_width ss) k (beside (parts_at xs ss (fun X => entry (X a))))).
  { intros a. destruct (concat_forward_ok r k (parts_at xs ss (fun X => entry (X a))) (start xs a)) as (u & Eu & U).
    - unfold parts_at. rewrite map_length, combine_length. lia.
    - now apply parts_tensors.
    - exists u. split; [exact Eu|]. now rewrite W in U. }
  exists (fun a => got (layer_forward v (P a) random true Concat (start xs a))).
  assert (TY : forall a, is_tensor (got (layer_forward v (P a) random true Concat (start xs a))) r (total_width ss) k (beside (parts_at xs ss (fun X => entry (X a))))).
  { intros a. destruct (FW a) as (y & -> & Hy). exact Hy. }
  destruct (curve_of _ r (total_width ss) k _ (beside (parts_at xs ss slope)) TY) as [CY SY].
  { intros i j l Hi Hj Hl. now apply (beside_slope xs ss r k). }
  split; [intros a; destruct (FW a) as (y & -> & _); reflexivity|]. split; [exact CY|].
  intros head e es dW dB _ Se Eb. pose proof (shaped_entry _ _ _ _ Se) as Te. cbn [layer_backward] in Eb. rewrite SB1 in Eb.
  assert (P4 : ss = map (fun p => (r, fst p, k)) (parts_at xs ss slope)).
  { unfold parts_at. clear - Q L. revert xs L Q. induction ss as [|[[r' c] k'] ss IH]; intros [|X xs] L Q; try discriminate; [reflexivity|]. injection L as L. cbn [combine map fst snd]. destruct (Q _ (or_introl eq_refl)) as [Q1 Q2]. cbn in Q1, Q2. subst r' k'.
    f_equal. apply IH; [exact L|]. intros; apply Q; now right. }
  destruct (concat_backward_ok r k (parts_at xs ss slope) 0 e (total_width ss) (entry e) Te) as (bs & errs & B1 & B2 & B3 & B4).
  - rewrite W. lia.
  - rewrite Forall_forall in *. intros q Hq. apply (in_map fst) in Hq. rewrite parts_width in Hq by exact L. apply in_map_iff in Hq as (s0 & <- & Hs). now apply SB2.
  - rewrite <- P4 in B1. rewrite B1 in Eb. cbn [obind] in Eb. injection Eb as <- <- <-. cbn [layer_changes fst snd reg]. rewrite !pair_all_nil, (pair_ext _ _ _ _ _ _ SY), (pair_is _ _ _ _ _ _ Te).
    rewrite <- (pairs_parts r k bs errs B2 xs ss L) by (try exact Q; rewrite B3; apply parts_width, L). rewrite <- dot_beside by exact B3. rewrite W, !Rplus_0_r. apply dot_ext. intros i j l Hi Hj Hl. split; [|reflexivity].
    rewrite B4 by (rewrite W; exact Hj). reflexivity.
Qed.

(** ** The layers of a vertex *)
Lemma layer_rule : forall l xs ss s head, Forall2 curve xs ss -> layer_shape v l ss = Some s -> layer_moves l -> layer_plain l -> layer_sends v head l ss ->
  (l = Activate -> kinked v -> forall X, In X xs -> forall i j k, inside s i j k -> entry (X 0) i j k <> 0) -> exists Y, chain_rule l xs ss s Y.
Proof.
  intros l xs ss s head H E M L SB HK. destruct l; cbn [layer_moves layer_plain layer_sends] in *; try contradiction.
  - now apply flatten_rule.
  - now apply full_rule.
  - now apply concat_rule.
  - now apply dropout_rule.
  - now apply bias_rule.
  - apply activate_rule; auto.
Qed.
Lemma start_shaped : forall xs ss a, Forall2 curve xs ss -> Forall2 shaped (start xs a) ss.
Proof. intros xs ss a H. unfold start. induction H as [|X s xs ss HX H IH]; cbn [map]; constructor; [apply HX|exact IH]. Qed.
Definition fits_always (l : layer) : Prop := forall a, layer_fit v (P a) l.
Lemma moves_fit : forall l, layer_moves l -> layer_plain l -> fits_always l.
Proof. intros l M Q a. destruct l; cbn [layer_moves layer_plain layer_fit] in *; try contradiction; try exact I; now apply M. Qed.
Lemma chain_rules : forall ls xs ss s head, ModelFile_Model.use_norm_clipping v = false -> Forall2 curve xs ss -> chain_shape v ls ss = Some s -> Forall layer_moves ls -> Forall layer_plain ls -> chain_sends v head ls ss ->
  (kinked v -> forall before after seen z, ls = before ++ Activate :: after -> chain_forward v (P 0) random true before (start xs 0) = Ok (seen, z) -> forall r c k, in_range z r c k -> entry z r c k <> 0) ->
  exists Y, (forall a, exists seen, chain_forward v (P a) random true ls (start xs a) = Ok (seen, Y a)) /\ curve Y s /\
    forall seen y, chain_forward v (P 0) random true ls (start xs 0) = Ok (seen, y) -> forall e es dW dB, shaped e s -> chain_backward v (P 0) random (combine ls seen) e = Ok (es, (dW, dB)) ->
      pair s e (slope Y) + total reg ls = pairs ss es (map slope xs) + pair_all (flat_map (fun l => fst (layer_changes v l)) ls) dW dw + pair_all (flat_map (fun l => snd (layer_changes v l)) ls) dB db.
Proof.
  intros ls. induction ls as [|l ls IH]; intros xs ss s head NC H E M L SB HK.
  - cbn [chain_shape] in E. destruct ss as [|s0 [|]]; try discriminate. injection E as ->. apply one_curve in H as (X & -> & HX). exists X. split; [intros a; exists []; reflexivity|]. split; [exact HX|].
    intros seen y _ e es dW dB Se Eb. cbn [combine chain_backward] in Eb. injection Eb as <- <- <-. cbn [flat_map map]. rewrite pairs_one, !pair_all_nil. unfold total. cbn. ring.
  - cbn [chain_shape chain_sends] in E, SB. destruct (layer_shape v l ss) as [s0|] eqn:El; [|discriminate]. destruct SB as [SB1 SB2]. inversion M as [|? ? M1 M2]; subst. inversion L as [|? ? L1 L2]; subst.
    destruct (layer_rule l xs ss s0 head H El M1 L1 SB1) as (X1 & F1 & C1 & R1).
    { intros -> K X HX. cbn [layer_shape] in El. destruct ss as [|s' [|]]; try discriminate. injection El as ->. apply one_curve in H as (X' & -> & HX'). destruct HX as [<-|[]]. specialize (HK K [] ls [] (X' 0) eq_refl eq_refl).
      intros i j k Hi. apply HK. destruct s0 as [[r c] q]. destruct (curve_tensor _ _ _ _ 0 HX') as (D1 & D2 & D3 & _). unfold in_range. rewrite D1, D2, D3. exact Hi. }
    destruct (IH [X1] [s0] s false NC) as (Y & F2 & C2 & R2); try assumption.
    { constructor; [exact C1|constructor]. } { now apply SB2. }
    { intros K before after seen z Eq Ez. apply (HK K (l :: before) after (start xs 0 :: seen) z); [now rewrite Eq|]. cbn [chain_forward]. rewrite (F1 0). cbn [obind]. cbn [start map] in Ez. rewrite Ez. reflexivity. }
    exists Y. split; [|split].
    + intros a. destruct (F2 a) as [seen Es]. exists (start xs a :: seen). cbn [chain_forward]. rewrite (F1 a). cbn [obind]. cbn [start map] in Es. rewrite Es. reflexivity.
    + exact C2.
    + intros seen y Ef e es dW dB Se Eb. cbn [chain_forward] in Ef. rewrite (F1 0) in Ef. cbn [obind] in Ef. destruct (chain_forward v (P 0) random true ls [X1 0]) as [[seen2 y2]| |] eqn:E2; cbn [obind fst snd] in Ef; try discriminate. injection Ef as <- <-.
      cbn [combine chain_backward] in Eb.
      destruct (chain_backward_ok v (P 0) random ls false (start [X1] 0) [s0] s) as (seen3 & y3 & E3 & B3).
      { apply start_shaped. constructor; [exact C1|constructor]. } { exact E. } { rewrite Forall_forall in *. intros l' Hl'. apply moves_fit; auto. } { now apply SB2. }
      cbn [start map] in E3. rewrite E2 in E3. injection E3 as <- <-. destruct (B3 e Se) as (es2 & dW2 & dB2 & Q1 & Q2 & Q3 & _ & _ & Q6). rewrite Q1 in Eb. cbn [obind fst snd] in Eb.
      specialize (Q6 eq_refl). inversion Q6 as [|e2 ? es' ? Se2 Q8]; subst. inversion Q8; subst. specialize (R2 seen2 y2 E2 e [e2] dW2 dB2 Se Q1).
      destruct (layer_backward_ok v (P 0) random head l (start xs 0) ss s0 e2 (start_shaped xs ss 0 H) El (moves_fit l M1 L1 0) SB1 Se2) as (es3 & dW3 & dB3 & T1 & T2 & T3 & _). rewrite T1 in Eb. cbn [obind fst snd] in Eb.
      assert (CN : clips v l = false) by (unfold clips; now rewrite NC). rewrite CN in Eb. cbn [obind] in Eb. injection Eb as <- <- <-. specialize (R1 head e2 es3 dW3 dB3 SB1 Se2 T1).
      cbn [flat_map]. rewrite pair_all_app by (symmetry; exact (Forall2_len _ _ _ T2)). rewrite pair_all_app by (symmetry; exact (Forall2_len _ _ _ T3)). cbn [map] in R2. rewrite pairs_one in R2. unfold total in *. cbn [fold_right]. lra.
Qed.
End Layer.
