(** Proofs about one vertex: forward, backward and update keep to the shapes. *)
From Coq Require Import List Arith Bool NArith Reals Lia Lra.
From Verif Require Import Outcome Tensor_Model Tensor_Spec Reduce_Model Activation_Model Layer_Model ConvLayer_Model Graph_Model Net_Model Net_Spec Net_Proofs.
From Verif Require Import Conv_Proofs.
From Verif Require ModelFile_Model Loss_Model.
Import ListNotations.
Local Open Scope nat_scope.

Definition tail_layers (v : vertex) : list layer :=
  (if ModelFile_Model.use_bias v then [Bias] else []) ++ (if ModelFile_Model.use_normalization v then [Normalize] else []) ++ (if ModelFile_Model.weighted (ModelFile_Model.node_type v) then [Activate] else []).
Lemma tail_shape : forall v s, chain_shape v (tail_layers v) [s] = if ModelFile_Model.use_bias v && negb (shape_eqb s (output_shape v)) then None else Some s.
Proof.
  intros v s. unfold tail_layers. destruct (ModelFile_Model.use_bias v), (ModelFile_Model.use_normalization v), (ModelFile_Model.weighted _); cbn [app chain_shape layer_shape andb]; try reflexivity; destruct (shape_eqb s _); reflexivity.
Qed.
Lemma tail_sends : forall v s, chain_sends v false (tail_layers v) [s].
Proof.
  intros v s. unfold tail_layers. destruct (ModelFile_Model.use_bias v), (ModelFile_Model.use_normalization v), (ModelFile_Model.weighted _); cbn [app chain_sends layer_sends]; repeat (split; [exact I|intros]); exact I.
Qed.
Lemma chain_cons : forall v l ls ss, chain_shape v (l :: ls) ss = match layer_shape v l ss with Some s => chain_shape v ls [s] | None => None end.
Proof. reflexivity. Qed.
Lemma gives_chain : forall v ss s, gives v ss = Some s -> chain_shape v (layers_of v) ss = Some s.
Proof.
  intros v ss s H. unfold layers_of. fold (tail_layers v). unfold gives, makes in H. destruct (ModelFile_Model.node_type v) eqn:Et.
  - destruct ss as [|s0 [|]]; try discriminate. unfold entering in H. destruct (1 <? _); cbn [app].
    + rewrite chain_cons. cbn [layer_shape]. rewrite chain_cons. cbn [layer_shape]. destruct (flattened s0) as [[r c] k]. destruct (_ && _); [|discriminate]. rewrite tail_shape. exact H.
    + rewrite chain_cons. cbn [layer_shape]. destruct s0 as [[r c] k]. destruct (_ && _); [|discriminate]. rewrite tail_shape. exact H.
  - destruct ss as [|[[r c] k] [|]]; try discriminate. cbn [app]. rewrite chain_cons. cbn [layer_shape]. destruct (_ && _) in H |- *; [|discriminate]. rewrite tail_shape. exact H.
  - destruct ss as [|[[r c] k] [|]]; try discriminate. cbn [app]. rewrite chain_cons. cbn [layer_shape]. destruct (forallb _ _) in H |- *; [|discriminate]. rewrite tail_shape. exact H.
  - destruct ss as [|s0 [|]]; try discriminate. cbn [app]. rewrite chain_cons. cbn [layer_shape]. rewrite tail_shape. exact H.
  - destruct ss as [|s0 [|]]; try discriminate. cbn [app]. rewrite chain_cons. cbn [layer_shape]. rewrite tail_shape. exact H.
  - destruct ss as [|s0 [|]]; try discriminate. unfold entering in H. destruct (1 <? _); cbn [app].
    + rewrite chain_cons. cbn [layer_shape]. rewrite chain_cons. cbn [layer_shape]. rewrite tail_shape. exact H.
    + rewrite chain_cons. cbn [layer_shape]. rewrite tail_shape. exact H.
Qed.
Lemma fit_layers : forall v p, fit v p -> Forall (layer_fit v p) (layers_of v).
Proof.
  intros v p (F1 & F2 & F3). unfold layers_of. fold (tail_layers v). apply Forall_app. split.
  - destruct (ModelFile_Model.node_type v) eqn:Et; try (destruct (1 <? _)); cbn [app]; repeat apply Forall_cons; try apply Forall_nil; try exact I; [apply F1|apply F1|apply F2]; reflexivity.
  - unfold tail_layers. apply Forall_app. split; [destruct (ModelFile_Model.use_bias v) eqn:Eb; constructor; [now apply F3|constructor]|]. destruct (ModelFile_Model.use_normalization v), (ModelFile_Model.weighted _); repeat apply Forall_cons; try apply Forall_nil; exact I.
Qed.
Lemma sends_chain : forall v head ss, sends_back v head ss -> chain_sends v head (layers_of v) ss.
Proof.
  intros v head ss H. unfold layers_of. fold (tail_layers v). unfold sends_back in H. destruct (ModelFile_Model.node_type v) eqn:Et.
  - destruct (Nat.ltb_spec 1 (fst (fst (input_shape v)))) as [L|L]; cbn [app chain_sends layer_sends].
    + split; [now apply H|]. intros s _. split; [exact I|]. intros s' _. apply tail_sends.
    + split; [exact I|]. intros s' _. apply tail_sends.
  - cbn [app chain_sends layer_sends]. split; [exact H|]. intros s _. apply tail_sends.
  - cbn [app chain_sends layer_sends]. split; [exact H|]. intros s _. apply tail_sends.
  - cbn [app chain_sends layer_sends]. split; [exact H|]. intros s _. apply tail_sends.
  - cbn [app chain_sends layer_sends]. split; [exact I|]. intros s _. apply tail_sends.
  - destruct (Nat.ltb_spec 1 (fst (fst (input_shape v)))) as [L|L]; cbn [app chain_sends layer_sends].
    + split; [now apply H|]. intros s _. split; [exact I|]. intros s' _. apply tail_sends.
    + split; [exact I|]. intros s' _. apply tail_sends.
Qed.
(** What a vertex keeps after each record. *)
Definition kept_weights (v : vertex) : list shape :=
  match ModelFile_Model.node_type v with
  | ModelFile_Model.full => [(volume (input_shape v), volume (output_shape v), 1)]
  | ModelFile_Model.convolution2dValid => repeat (kernel v, kernel v, snd (input_shape v)) (filters_of v)
  | _ => []
  end.
Definition kept_bias (v : vertex) : list shape := if ModelFile_Model.use_bias v then [output_shape v] else [].
Lemma changes_of_layers : forall v, flat_map (fun l => fst (layer_changes v l)) (layers_of v) = kept_weights v /\ flat_map (fun l => snd (layer_changes v l)) (layers_of v) = kept_bias v.
Proof.
  intros v. unfold layers_of, kept_weights, kept_bias. rewrite !flat_map_app.
  destruct (ModelFile_Model.node_type v) eqn:Et; try (destruct (1 <? _)); destruct (ModelFile_Model.use_bias v), (ModelFile_Model.use_normalization v); cbn [flat_map app layer_changes fst snd ModelFile_Model.weighted ModelFile_Model.layer_eqb orb]; rewrite ?app_nil_r; split; reflexivity.
Qed.

Lemma vertex_forward_ok : forall v p random training xs ss s, Forall2 shaped xs ss -> gives v ss = Some s -> fit v p -> exists y, vertex_forward v p random training xs = Ok y /\ shaped y s.
Proof.
  intros v p random training xs ss s H E F. destruct (chain_forward_ok v p random training (layers_of v) xs ss s H (gives_chain _ _ _ E) (fit_layers _ _ F)) as (r & y & Er & Y).
  exists y. unfold vertex_forward. rewrite Er. split; [reflexivity|exact Y].
Qed.
Lemma vertex_backward_ok : forall v p random head xs ss s e, Forall2 shaped xs ss -> gives v ss = Some s -> fit v p -> sends_back v head ss -> shaped e s ->
  exists es dW dB, vertex_backward v p random xs e = Ok (es, (dW, dB)) /\ Forall2 shaped dW (kept_weights v) /\ Forall2 shaped dB (kept_bias v) /\ (head = false -> Forall2 shaped es ss).
Proof.
  intros v p random head xs ss s e H E F B He. destruct (chain_backward_ok v p random (layers_of v) head xs ss s H (gives_chain _ _ _ E) (fit_layers _ _ F) (sends_chain _ _ _ B)) as (r & y & Er & Y).
  destruct (Y e He) as (es & dW & dB & Q1 & Q2 & Q3 & _ & _ & Q6). destruct (changes_of_layers v) as [C1 C2]. rewrite C1 in Q2. rewrite C2 in Q3. exists es, dW, dB. unfold vertex_backward. rewrite Er. cbn [obind fst]. auto.
Qed.

(** ** The update *)
Lemma queue_shaped : forall first rest s, shaped first s -> Forall (fun t => shaped t s) rest -> exists u, queue_sum first rest = Ok u /\ shaped u s.
Proof.
  intros first rest s H F. unfold queue_sum. revert first H. induction F as [|x rest X F IH]; intros first H; cbn [fold_left obind]; [now exists first|].
  destruct (shaped_pointwise (add rops) first x s H X) as (u & E & U). unfold add_view in *. rewrite E. now apply IH.
Qed.
Lemma fc_apply_shaped : forall change w q st s, (forall a b, shaped a s -> shaped b s -> exists u, change a b = Ok u /\ shaped u s) -> shaped w s -> q <> [] -> Forall (fun t => shaped t s) q ->
  exists u, fc_apply change {| fc_weights := w; lastInputs := []; weights_errors := q; l2 := st |} = Ok u /\ shaped (fc_weights u) s.
Proof.
  intros change w q st s C W N F. unfold fc_apply. cbn [weights_errors fc_weights]. destruct q as [|first rest]; [contradiction|]. inversion F; subst. destruct (queue_shaped first rest s) as (u & E & U); try assumption. rewrite E. cbn [obind].
  destruct (shaped_materialize (scalar_divide u (INR (length (first :: rest)))) s) as (m & Em & M); [now apply shaped_transform|]. rewrite Em. cbn [obind]. destruct (C w m W M) as (a & Ea & A). rewrite Ea. cbn [obind].
  destruct (shaped_materialize a s A) as (z & Ez & Z). rewrite Ez. cbn [obind]. eexists. split; [reflexivity|exact Z].
Qed.
Lemma bias_apply_shaped : forall change w q s, (forall a b, shaped a s -> shaped b s -> exists u, change a b = Ok u /\ shaped u s) -> shaped w s -> q <> [] -> Forall (fun t => shaped t s) q ->
  exists u, bias_apply change {| bias_values := w; bias_errors := q |} = Ok u /\ shaped (bias_values u) s.
Proof.
  intros change w q s C W N F. unfold bias_apply. cbn [bias_errors bias_values]. destruct q as [|first rest]; [contradiction|]. inversion F; subst. destruct (queue_shaped first rest s) as (u & E & U); try assumption. rewrite E. cbn [obind].
  destruct (shaped_materialize (scalar_divide u (INR (length (first :: rest)))) s) as (m & Em & M); [now apply shaped_transform|]. rewrite Em. cbn [obind]. destruct (C w m W M) as (a & Ea & A). rewrite Ea. cbn [obind].
  destruct (shaped_materialize a s A) as (z & Ez & Z). rewrite Ez. cbn [obind]. eexists. split; [reflexivity|exact Z].
Qed.
Lemma omapM_shaped : forall {A} (f : A -> outcome T) l s, (forall x, In x l -> exists u, f x = Ok u /\ shaped u s) -> exists us, omapM f l = Ok us /\ length us = length l /\ Forall (fun w => shaped w s) us.
Proof.
  intros A f l s. induction l as [|x l IH]; intros H; [exists []; repeat split; constructor|]. cbn [omapM]. destruct (H x (or_introl eq_refl)) as (u & -> & U). cbn [obind]. destruct IH as (us & E1 & E2 & E3); [intros; apply H; now right|].
  rewrite E1. cbn [obind]. exists (u :: us). split; [reflexivity|]. split; [cbn; lia|now constructor].
Qed.
Lemma conv_apply_shaped : forall v change p q s, (forall a b, shaped a s -> shaped b s -> exists u, change a b = Ok u /\ shaped u s) -> length (kernels p) = filters_of v -> Forall (fun w => shaped w s) (kernels p) ->
  Forall (fun g => length g = filters_of v /\ Forall (fun t => shaped t s) g) q ->
  exists us, conv_apply v p change q = Ok us /\ length us = filters_of v /\ Forall (fun w => shaped w s) us.
Proof.
  intros v change p q s C. unfold conv_apply. generalize (kernels p). clear p. intros ks L W F. revert ks L W. induction F as [|g q [G1 G2] F IH]; intros ks L W; cbn [fold_left obind]; [now exists ks|].
  destruct (omapM_shaped (fun i => do w <- vec_at ks i; do gradient <- vec_at g i; do adjusted <- change w gradient; materialize adjusted) (seq 0 (filter_count v)) s) as (us & E1 & E2 & E3).
  - intros i Hi%in_seq. unfold filter_count in Hi. fold (filters_of v) in Hi. unfold vec_at.
    destruct (nth_error ks i) as [w|] eqn:Ew; [|apply nth_error_None in Ew; lia]. destruct (nth_error g i) as [gr|] eqn:Eg; [|apply nth_error_None in Eg; lia]. cbn [obind].
    apply nth_error_In in Ew, Eg. rewrite Forall_forall in W, G2. destruct (C w gr (W _ Ew) (G2 _ Eg)) as (a & Ea & A). rewrite Ea. cbn [obind]. now apply shaped_materialize.
  - rewrite E1. apply IH; [|exact E3]. rewrite E2, seq_length. reflexivity.
Qed.
Definition kept_fit (v : vertex) (kept : list T * list T) : Prop := Forall2 shaped (fst kept) (kept_weights v) /\ Forall2 shaped (snd kept) (kept_bias v).
Lemma Forall2_repeat : forall (l : list T) s n, Forall2 shaped l (repeat s n) -> length l = n /\ Forall (fun t => shaped t s) l.
Proof. intros l s n H. split; [rewrite (Forall2_len _ _ _ H); apply repeat_length|]. revert n H. induction l as [|x l IH]; intros [|n] H; cbn in H; inversion H; subst; constructor; eauto. Qed.
Lemma vertex_apply_ok : forall v p change pending, (forall l a b s, shaped a s -> shaped b s -> exists u, change l a b = Ok u /\ shaped u s) -> fit v p -> pending <> [] -> Forall (kept_fit v) pending ->
  exists p', vertex_apply v p change pending = Ok p' /\ fit v p'.
Proof.
  intros v p change pending C (F1 & F2 & F3) N K. unfold vertex_apply.
  assert (B : exists b, (if ModelFile_Model.use_bias v then do b <- bias_apply (change Bias) {| bias_values := biases p; bias_errors := concat (map snd pending) |}; Ok (bias_values b) else Ok (biases p)) = Ok b /\
     (ModelFile_Model.use_bias v = true -> shaped b (output_shape v))).
  { destruct (ModelFile_Model.use_bias v) eqn:Eb; [|exists (biases p); split; [reflexivity|discriminate]].
    destruct (bias_apply_shaped (change Bias) (biases p) (concat (map snd pending)) (output_shape v)) as (u & Eu & U).
    - intros a b. apply C.
    - now apply F3.
    - destruct pending as [|[kw kb] q]; [contradiction|]. inversion K as [|? ? [_ K1] _]; subst. unfold kept_bias in K1. rewrite Eb in K1. cbn [snd] in K1. inversion K1; subst. discriminate.
    - clear N. induction K as [|[kw kb] q [_ K1] K IH]; [constructor|]. cbn [map concat snd]. apply Forall_app. split; [|exact IH]. unfold kept_bias in K1. rewrite Eb in K1. cbn [snd] in K1. inversion K1 as [|? ? ? ? X1 X2]; subst. inversion X2; subst. constructor; [exact X1|constructor].
    - rewrite Eu. cbn [obind]. eexists. split; [reflexivity|]. intros _. exact U. }
  destruct B as (b & Eb & B). rewrite Eb. clear Eb. cbn [obind]. destruct (ModelFile_Model.node_type v) eqn:Et.
  - destruct (fc_apply_shaped (change Full) (weights p) (concat (map fst pending)) (strength v) (volume (input_shape v), volume (output_shape v), 1)) as (u & Eu & U).
    + intros x y. apply C.
    + now apply F1.
    + destruct pending as [|[kw kb] q]; [contradiction|]. inversion K as [|? ? [K1 _] _]; subst. unfold kept_weights in K1. rewrite Et in K1. cbn [fst] in K1. inversion K1; subst. discriminate.
    + clear N. induction K as [|[kw kb] q [K1 _] K IH]; [constructor|]. cbn [map concat fst]. apply Forall_app. split; [|exact IH]. unfold kept_weights in K1. rewrite Et in K1. cbn [fst] in K1. inversion K1 as [|? ? ? ? X1 X2]; subst. inversion X2; subst. constructor; [exact X1|constructor].
    + rewrite Eu. cbn [obind]. eexists. split; [reflexivity|]. split; [intros _; exact U|]. split; [cbn [kernels]; intros X; congruence|]. exact B.
  - destruct (F2 eq_refl) as [L W]. destruct (conv_apply_shaped v (change Conv) p (map fst pending) (kernel v, kernel v, snd (input_shape v))) as (us & Eu & U1 & U2); try assumption.
    + intros x y. apply C.
    + clear N. induction K as [|[kw kb] q [K1 _] K IH]; [constructor|]. cbn [map fst]. constructor; [|exact IH]. unfold kept_weights in K1. rewrite Et in K1. cbn [fst] in K1. now apply Forall2_repeat.
    + rewrite Eu. cbn [obind]. eexists. split; [reflexivity|]. split; [intros X; congruence|]. split; [|exact B]. intros _. cbn [kernels]. auto.
  - eexists. split; [reflexivity|]. split; [intros X; congruence|]. split; [intros X; congruence|exact B].
  - eexists. split; [reflexivity|]. split; [intros X; congruence|]. split; [intros X; congruence|exact B].
  - eexists. split; [reflexivity|]. split; [intros X; congruence|]. split; [intros X; congruence|exact B].
  - eexists. split; [reflexivity|]. split; [intros X; congruence|]. split; [intros X; congruence|exact B].
Qed.
