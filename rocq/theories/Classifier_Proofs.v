(** Proofs for C105: one output layer with softmax. *)
From Coquelicot Require Import Coquelicot.
From Coq Require Import List Arith Bool NArith Reals Lia Lra FunctionalExtensionality.
From Verif Require Import Outcome Tensor_Model Tensor_Spec Reduce_Model Reduce_Spec Activation_Model Layer_Model Layer_Spec Graph_Model Net_Model Net_Spec NetGrad_Spec Classifier_Spec.
From Verif Require Import Algebra_Proofs MatMul_Proofs Layer_Proofs Activation_Proofs Net_Proofs Net_Vertex NetGrad_Layers.
From Verif Require ModelFile_Model Loss_Model Scaling_Spec.
Import ListNotations.
Local Open Scope R_scope.

(** ** Softmax of a row, and the cross entropy of it *)
Definition share (n : nat) (z : nat -> R) (c : nat) : R := exp (z c) / SumR n (fun q => exp (z q)).
Lemma SumR_pos : forall n (h : nat -> R), (0 < n)%nat -> (forall i, 0 < h i) -> 0 < SumR n h.
Proof.
  intros n h Hn H. destruct n as [|n]; [lia|]. clear Hn. induction n as [|n IH]; cbn [Sum add rops zero] in *; [rewrite Rplus_0_l; apply H|]. apply Rplus_lt_0_compat; [exact IH|apply H].
Qed.
Lemma row_sum : forall n (f : nat -> nat -> nat -> R) (h : R -> R), Scaling_Spec.sum (map h (elements 1 n 1 f)) = SumR n (fun c => h (f 0%nat c 0%nat)).
Proof.
  intros n f h. unfold elements. cbn [seq map concat]. rewrite !app_nil_r, map_map.
  assert (A : forall l a, fold_right Rplus 0 (l ++ [a]) = fold_right Rplus 0 l + a) by (induction l as [|x l IH]; intros a; cbn [app fold_right]; [lra|rewrite IH; lra]).
  unfold Scaling_Spec.sum. induction n as [|n IH]; [reflexivity|]. rewrite seq_S, map_app. cbn [map Nat.add]. rewrite A, IH. reflexivity.
Qed.
Lemma softmax_row : forall z n f, is_tensor z 1 n 1 f -> exists y, softmax z = Ok y /\ is_tensor y 1 n 1 (fun _ j _ => share n (fun c => f 0%nat c 0%nat) j).
Proof.
  intros z n f H. destruct (softmax_tensor z 1 n 1 f H) as (y & E & Y). exists y. split; [exact E|]. eapply is_tensor_ext; [exact Y|]. intros i j k Hi _ Hk. cbv beta. unfold share. rewrite row_sum. replace i with 0%nat by lia. replace k with 0%nat by lia. reflexivity.
Qed.
Lemma cross_slope : forall n (t z u : nat -> R), SumR n t = 1 -> D0 (fun a => - SumR n (fun c => t c * ln (share n (fun q => z q + a * u q) c))) (SumR n (fun c => (share n z c - t c) * u c)).
Proof.
  intros n t z u Ht. assert (Hn : (0 < n)%nat) by (destruct n; [cbn in Ht; lra|lia]).
  set (E := fun a => SumR n (fun q => exp (z q + a * u q))). assert (Pe : forall a, 0 < E a) by (intros a; apply SumR_pos; [exact Hn|intros; apply exp_pos]).
  assert (L : forall c, D0 (fun a => z c + a * u c) (u c)).
  { intros c. eapply D_val; [apply (D_add (fun _ => z c) (fun s => s * u c) 0 (1 * u c + 0 * 0) (D_const _))|ring]. apply (D_mul (fun s => s) (fun _ => u c) 1 0); [apply (is_derive_id (K := R_AbsRing))|apply D_const]. }
  apply (D_ext (fun a => ln (E a) + -1 * SumR n (fun c => t c * (z c + a * u c)))).
  - intros a. assert (Q : SumR n (fun c => t c * ln (share n (fun q => z q + a * u q) c)) = SumR n (fun c => t c * (z c + a * u c) + - ln (E a) * t c)).
    { apply SumR_ext. intros c _. unfold share. fold (E a). unfold Rdiv. rewrite ln_mult by (first [apply exp_pos | apply Rinv_0_lt_compat, Pe]). rewrite ln_exp, ln_Rinv by apply Pe. ring. }
    rewrite Q, SumR_add, SumR_mul_l, Ht. ring.
  - eapply D_val; [apply (D_add (fun a => ln (E a)) (fun a => -1 * SumR n (fun c => t c * (z c + a * u c))))|].
    + apply (D_comp ln E (SumR n (fun q => exp (z q) * u q)) (/ E 0)); [apply is_derive_Reals, derivable_pt_lim_ln, Pe|].
      apply (D_sum n (fun q a => exp (z q + a * u q)) (fun q => exp (z q) * u q)). intros c _. eapply D_val; [apply (D_comp exp (fun a => z c + a * u c) (u c) (exp (z c + 0 * u c))); [apply is_derive_exp|apply L]|]. do 2 f_equal. ring.
    + apply D_scale. apply (D_sum n (fun c a => t c * (z c + a * u c)) (fun c => t c * u c)). intros c _. apply D_scale, L.
    + rewrite <- !SumR_mul_l, <- SumR_add. apply SumR_ext. intros c _. unfold share. assert (E0 : E 0 = SumR n (fun q => exp (z q))) by (unfold E; apply SumR_ext; intros q _; do 2 f_equal; ring). rewrite <- E0. unfold Rdiv. ring.
Qed.

(** ** The layer *)
Section Output.
Context (v : vertex) (m n : nat).
Context (Et : ModelFile_Model.node_type v = ModelFile_Model.full) (Ea : ModelFile_Model.activation_type v = ModelFile_Model.softmax) (En : ModelFile_Model.use_normalization v = false)
        (Ec : ModelFile_Model.use_norm_clipping v = false) (El : ModelFile_Model.use_l2_regularization v = false) (Ei : input_shape v = (1, m, 1)%nat) (Eo : output_shape v = (1, n, 1)%nat).
Definition row_score (p : params) (x : T) (c : nat) : R := SumR m (fun i => entry x 0 i 0 * entry (weights p) i c 0) + (if ModelFile_Model.use_bias v then entry (biases p) 0 c 0 else 0).
Lemma output_layers : layers_of v = Full :: (if ModelFile_Model.use_bias v then [Bias; Activate] else [Activate]).
Proof. unfold layers_of. rewrite Et, En, Ei. cbn. destruct (ModelFile_Model.use_bias v); reflexivity. Qed.
Lemma output_fits : forall p, fit v p -> is_tensor (weights p) m n 1 (entry (weights p)) /\ (ModelFile_Model.use_bias v = true -> is_tensor (biases p) 1 n 1 (entry (biases p))).
Proof.
  intros p (F1 & _ & F3). specialize (F1 Et). rewrite Ei, Eo in F1. unfold volume in F1. rewrite !Nat.mul_1_l, !Nat.mul_1_r in F1. split; [now apply shaped_entry|]. intros Eb. specialize (F3 Eb). rewrite Eo in F3. now apply shaped_entry.
Qed.
Lemma output_chain : forall p random training x, fit v p -> shaped x (1, m, 1)%nat -> exists u z y, chain_forward v p random training (layers_of v) [x] = Ok ([x] :: (if ModelFile_Model.use_bias v then [[u]; [z]] else [[z]]), y) /\
  is_tensor z 1 n 1 (fun _ j _ => row_score p x j) /\ is_tensor y 1 n 1 (fun _ j _ => share n (row_score p x) j).
Proof.
  intros p random training x F X. destruct (output_fits p F) as [Hw Hb]. pose proof (shaped_entry _ _ _ _ X) as Hx. destruct (multiply_element rops x (weights p) 1 m n 1 _ _ Hx Hw) as (u & Eu & U).
  assert (EF : layer_forward v p random training Full [x] = Ok u) by (cbn [layer_forward]; unfold fc_forward; destruct training; cbn [new_fc fc_weights]; rewrite Eu; reflexivity).
  assert (Q : exists z, (ModelFile_Model.use_bias v = true -> layer_forward v p random training Bias [u] = Ok z) /\ (ModelFile_Model.use_bias v = false -> z = u) /\ is_tensor z 1 n 1 (fun _ j _ => row_score p x j)).
  { unfold row_score. destruct (ModelFile_Model.use_bias v) eqn:Eb.
    - destruct (pointwise_element Rplus u (biases p) 1 n 1 _ _ U (Hb eq_refl)) as (z & Ez & Z). exists z. cbn [layer_forward bias_forward new_bias bias_values]. unfold add_view. cbn [add rops]. split; [intros _; exact Ez|]. split; [discriminate|].
      eapply is_tensor_ext; [exact Z|]. intros i j k Hi _ Hk. cbv beta. replace i with 0%nat by lia. replace k with 0%nat by lia. reflexivity.
    - exists u. split; [discriminate|]. split; [reflexivity|]. eapply is_tensor_ext; [exact U|]. intros i j k Hi _ Hk. cbv beta. replace i with 0%nat by lia. replace k with 0%nat by lia. symmetry. apply Rplus_0_r. }
  destruct Q as (z & Q1 & Q2 & Z). destruct (softmax_row z n _ Z) as (y & Ey & Y). exists u, z, y. split; [|split; [exact Z|exact Y]].
  rewrite output_layers. cbn [chain_forward]. rewrite EF. cbn [obind]. assert (EA : layer_forward v p random training Activate [z] = Ok y) by (cbn [layer_forward]; rewrite Ea; exact Ey).
  destruct (ModelFile_Model.use_bias v).
  - cbn [chain_forward]. rewrite (Q1 eq_refl). cbn [obind]. rewrite EA. reflexivity.
  - rewrite <- (Q2 eq_refl). cbn [chain_forward]. rewrite EA. reflexivity.
Qed.
Lemma output_forward : forall p random training x, fit v p -> shaped x (1, m, 1)%nat -> exists y, vertex_forward v p random training [x] = Ok y /\ is_tensor y 1 n 1 (fun _ j _ => share n (row_score p x) j).
Proof. intros p random training x F X. destruct (output_chain p random training x F X) as (u & z & y & E & _ & Y). exists y. unfold vertex_forward. rewrite E. split; [reflexivity|exact Y]. Qed.
(** The errors are multiplied with the scores. *)
Lemma output_backward : forall p random x e h, fit v p -> shaped x (1, m, 1)%nat -> is_tensor e 1 n 1 h -> exists back dw db, vertex_backward v p random [x] e = Ok (back, ([dw], db)) /\
  is_tensor dw m n 1 (fun i j _ => entry x 0 i 0 * (row_score p x j * h 0%nat j 0%nat)) /\ (ModelFile_Model.use_bias v = true -> exists b, db = [b] /\ is_tensor b 1 n 1 (fun _ j _ => row_score p x j * h 0%nat j 0%nat)).
Proof.
  intros p random x e h F X He. destruct (output_chain p random true x F X) as (u & z & y & E & Z & _). destruct (output_fits p F) as [Hw Hb].
  destruct (pointwise_element Rmult z e 1 n 1 _ h Z He) as (e1 & Ee & H1). assert (EA : layer_backward v p random Activate [z] e = Ok ([e1], ([], []))).
  { cbn [layer_backward]. rewrite Ea. change (activation_backward (activation_of ModelFile_Model.softmax) [z] e) with (pointwise Rmult z e). rewrite Ee. reflexivity. }
  pose proof (shaped_entry _ _ _ _ X) as Hx.
  destruct (fc_backward_ok {| fc_weights := weights p; lastInputs := [x]; weights_errors := []; l2 := strength v |} e1 1 m n 1 (entry (weights p)) _ [(x, entry x)] eq_refl ltac:(discriminate) ltac:(constructor; [exact Hx|constructor]) Hw H1) as (back & we & Eb & _ & Hwe).
  destruct (multiply_element rops x (weights p) 1 m n 1 _ _ Hx Hw) as (u' & Eu & _).
  assert (EF : layer_backward v p random Full [x] e1 = Ok ([back], ([we], []))).
  { cbn [layer_backward]. unfold fc_forward. cbn [new_fc fc_weights lastInputs weights_errors l2 app]. rewrite Eu. cbn [obind fst snd]. rewrite Eb. reflexivity. }
  assert (NC : forall l, clips v l = false) by (intros l; unfold clips; rewrite Ec; reflexivity).
  assert (Hd : is_tensor we m n 1 (fun i j _ => entry x 0 i 0 * (row_score p x j * h 0%nat j 0%nat))).
  { eapply is_tensor_ext; [exact Hwe|]. intros i j k _ _ Hk. cbv beta. replace k with 0%nat by lia. unfold strength, total. rewrite El. cbn [Sum strength_of fold_right snd length add rops zero INR l2]. field. }
  unfold vertex_backward. rewrite E. cbn [obind fst]. rewrite output_layers. exists [back], we. destruct (ModelFile_Model.use_bias v).
  - exists [e1]. cbn [combine chain_backward obind fst snd]. rewrite EA. cbn [obind fst snd]. rewrite NC. cbn [obind fst snd app layer_backward bias_backward bias_errors new_bias]. rewrite NC. cbn [obind fst snd app]. cbn [layer_backward] in EF. rewrite EF. cbn [obind fst snd app]. rewrite NC. cbn [obind app].
    split; [reflexivity|]. split; [exact Hd|]. intros _. exists e1. split; [reflexivity|]. eapply is_tensor_ext; [exact H1|]. intros i j k Hi _ Hk. cbv beta. replace i with 0%nat by lia. replace k with 0%nat by lia. reflexivity.
  - exists []. cbn [combine chain_backward obind fst snd]. rewrite EA. cbn [obind fst snd]. rewrite NC. cbn [obind fst snd app]. rewrite EF. cbn [obind fst snd app]. rewrite NC. cbn [obind app].
    split; [reflexivity|]. split; [exact Hd|]. discriminate.
Qed.
End Output.
