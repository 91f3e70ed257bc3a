(** C105: training a network that chooses labels with softmax and the cross entropy. *)
From Coquelicot Require Import Coquelicot.
From Coq Require Import List Arith Bool NArith Reals Lia Lra FunctionalExtensionality.
From Verif Require Import Outcome Tensor_Model Tensor_Spec Activation_Model Layer_Model Layer_Spec Graph_Model Graph_Spec Graph_Props Net_Model Net_Spec NetGrad_Spec Classifier_Spec.
From Verif Require Import Algebra_Proofs Layer_Proofs Net_Proofs Net_Vertex Net_Graph Net_Flow Net_Train NetGrad_Layers NetGrad_Flow NetGrad_Proofs NetGrad_Steps Classifier_Proofs Classifier_Flow.
From Verif Require ModelFile_Model ModelFile_Spec ModelFile_Proofs ModelFile_Props Loss_Model Net_Props.
Import ListNotations.
Local Open Scope R_scope.

(** ** Moving the parameters of one layer *)
Lemma along_null : forall s t (u : nat -> nat -> nat -> R), (forall i j k, u i j k = 0) -> along s t u = t.
Proof.
  intros s [r c k gt] u H. unfold along. cbn [rows cols chans get]. f_equal. apply functional_extensionality. intros i. apply functional_extensionality. intros j. apply functional_extensionality. intros l. rewrite H. destruct (gt i j l); cbn [obind]; try reflexivity. f_equal. ring.
Qed.
Lemma moved_elsewhere : forall ps dw db s id, (forall i j k, dw id i j k = 0) -> (forall i j k, db id i j k = 0) -> moved ps dw db s id = ps id.
Proof. intros ps dw db s id H1 H2. unfold moved. rewrite !along_null by assumption. now destruct (ps id). Qed.
Lemma along_shaped : forall s t u sh, shaped t sh -> shaped (along s t u) sh.
Proof. intros s t u [[r c] k] H. eexists. now apply along_tensor. Qed.
Lemma moved_fits : forall d ps dw db s, all_fit d ps -> all_fit d (moved ps dw db s).
Proof.
  intros d ps dw db s F id v Ev. destruct (F id v Ev) as (F1 & F2 & F3). split; [intros E; cbn [moved weights]; apply along_shaped; now apply F1|]. split; [exact F2|]. intros E. cbn [moved biases]. apply along_shaped. now apply F3.
Qed.
Lemma score_moved : forall v m n p (w b : nat -> nat -> nat -> R) (x : T) s c, ModelFile_Model.node_type v = ModelFile_Model.full -> input_shape v = (1, m, 1)%nat -> output_shape v = (1, n, 1)%nat -> fit v p -> (c < n)%nat ->
  row_score v m {| weights := along s (weights p) w; kernels := kernels p; biases := along s (biases p) b |} x c =
  row_score v m p x c + s * (SumR m (fun i => entry x 0 i 0 * w i c 0%nat) + (if ModelFile_Model.use_bias v then b 0%nat c 0%nat else 0)).
Proof.
  intros v m n p w b x s c Et Ei Eo F Hc. destruct (output_fits v m n Et Ei Eo p F) as [Hw Hb]. unfold row_score. cbn [weights biases].
  assert (Q : SumR m (fun i => entry x 0 i 0 * entry (along s (weights p) w) i c 0) = SumR m (fun i => entry x 0 i 0 * entry (weights p) i c 0 + s * (entry x 0 i 0 * w i c 0%nat))).
  { apply SumR_ext. intros i Hi. rewrite (entry_is _ _ _ _ _ i c 0 (along_tensor (weights p) w s m n 1%nat ltac:(eexists; exact Hw))) by lia. ring. }
  rewrite Q, SumR_add, SumR_mul_l. destruct (ModelFile_Model.use_bias v); [|ring]. specialize (Hb eq_refl). rewrite (entry_is _ _ _ _ _ 0 c 0 (along_tensor (biases p) b s 1%nat n 1%nat ltac:(eexists; exact Hb))) by lia. ring.
Qed.

(** ** How the output layer learns *)
(** A classifier is trained with the categorical cross entropy, by plain gradient descent, on a batch of any size.  Each weight and each bias of its output
    layer does not go down by the mean of the partial derivatives [G r] of the cross entropies of the records, as gradient descent
    says, but by the mean of their products with the scores of the label: for a label with a negative score, in the wrong direction. *)
(** Partial, C105: about the output layer only, without regularization, normalization and clipping; what the layers before it get is not compared. *)
Theorem classifier_step_partial : forall cs opt r0 rb0 l d net sh o v m n, ModelFile_Spec.joins_something cs -> ModelFile_Model.run cs (ModelFile_Model.new_dsl opt r0 rb0 l) = Ok d -> ModelFile_Model.build d = Ok net ->
  ModelFile_Model.vertices d <> [] -> outputs_end d -> ends_are_outputs d -> no_sharing d -> well_shaped d net sh -> trainable d net sh -> classifier d (network d net) sh o v m n ->
  exists fuel0, forall fuel ps rs rate bias_rate, (fuel0 <= fuel)%nat -> prepared d (network d net) sh ps rs ->
  exists ps', train_batch d (network d net) Loss_Model.cce fuel (gradient_descent rate bias_rate) ps rs = Ok ps' /\ forall j, (j < n)%nat ->
    (forall i, (i < m)%nat -> exists G, (forall r, In r rs -> derivable_pt_lim (fun s => cross_entropy d (network d net) fuel n (moved ps (only o i j 0) none s) r) 0 (G r)) /\
       entry (weights (ps' o)) i j 0 = entry (weights (ps o)) i j 0 - rate * (total (fun r => score d (network d net) ps r o v j * G r) rs / INR (length rs))) /\
    (ModelFile_Model.use_bias v = true -> exists G, (forall r, In r rs -> derivable_pt_lim (fun s => cross_entropy d (network d net) fuel n (moved ps none (only o 0 j 0) s) r) 0 (G r)) /\
       entry (biases (ps' o)) 0 j 0 = entry (biases (ps o)) 0 j 0 - bias_rate * (total (fun r => score d (network d net) ps r o v j * G r) rs / INR (length rs))).
Proof.
  intros cs opt r0 rb0 l d net sh o v m n J Rn Bd NV OE EO NS W TR C. destruct (ModelFile_Props.program_ok _ _ _ _ _ _ J Rn) as [D HI].
  destruct (batch_went _ d net D HI Bd NV OE EO NS sh W TR o v m n C) as [fuel0 H]. exists fuel0. intros fuel ps rs rate bias_rate Hf Pp. destruct (H fuel Hf) as [Pr HB]. destruct (HB ps rs rate bias_rate Pp) as (ps' & Ep & _ & Hw & Hb). exists ps'. split; [exact Ep|].
  destruct Pp as (F & Ne & E). rewrite Forall_forall in E. pose proof C as (C1 & C2 & C3 & C4 & C5 & C6 & C7 & C8 & C9 & C10). pose proof (F o v C2) as Fo. intros j Hj. set (g := network d net) in *.
  assert (Dir : forall dw db u r, In r rs -> (forall id, id <> o -> (forall a b c, dw id a b c = 0) /\ (forall a b c, db id a b c = 0)) ->
    (forall c, (c < n)%nat -> SumR m (fun i => entry (row d net o m ps r) 0 i 0 * dw o i c 0%nat) + (if ModelFile_Model.use_bias v then db o 0%nat c 0%nat else 0) = u c) ->
    derivable_pt_lim (fun s => cross_entropy d g fuel n (moved ps dw db s) r) 0 (SumR n (fun c => (predicted d g fuel ps r c - wanted r c) * u c))).
  { intros dw db u r Hr Hz Hu. destruct (E r Hr) as (G & Fr & La). apply is_derive_Reals. pose proof (entropy_slope _ d net D HI Bd sh W o v m n C fuel r (moved ps dw db) u Pr G Fr La (fun a => moved_fits d ps dw db a F)) as Q. rewrite moved_zero in Q. apply Q. clear Q.
    intros a c Hc. rewrite (score_is _ d net D HI Bd sh W o v m n C (moved ps dw db a) r c (moved_fits d ps dw db a F) G), (score_is _ d net D HI Bd sh W o v m n C ps r c F G).
    rewrite (row_same _ d net D HI Bd sh W o v m n C (moved ps dw db a) ps r (moved_fits d ps dw db a F) F G) by (intros id N; destruct (Hz id N); now apply moved_elsewhere).
    unfold moved at 1. rewrite (score_moved v m n (ps o) (dw o) (db o) _ a c C3 C8 C9 Fo Hc), Hu by exact Hc. reflexivity. }
  assert (Pick : forall h x, SumR n (fun c => h c * (if Nat.eqb c j then x else 0)) = h j * x).
  { intros h x. rewrite (Sum_one rops Ropp rring n _ j Hj); [now rewrite Nat.eqb_refl|]. intros c _ N. destruct (Nat.eqb_spec c j); [contradiction|]. cbn. ring. }
  split.
  - intros i Hi. exists (fun r => (predicted d g fuel ps r j - wanted r j) * entry (row d net o m ps r) 0 i 0). split.
    + intros r Hr. rewrite <- (Pick (fun c => predicted d g fuel ps r c - wanted r c)). apply Dir; [exact Hr|intros id N; split; [now apply only_elsewhere|reflexivity]|]. intros c Hc. unfold none. rewrite only_here.
      replace (if ModelFile_Model.use_bias v then 0 else 0) with 0 by now destruct (ModelFile_Model.use_bias v). rewrite Rplus_0_r. rewrite (Sum_one rops Ropp rring m _ i Hi).
      * rewrite Nat.eqb_refl. cbn [andb mul rops]. rewrite andb_true_r. destruct (Nat.eqb c j); ring.
      * intros q _ N. destruct (Nat.eqb_spec q i); [contradiction|]. cbn. ring.
    + rewrite (entry_is _ _ _ _ _ i j 0 Hw) by lia. f_equal. f_equal. unfold went_weights. f_equal. apply total_ext. intros r _. fold g. ring.
  - intros Eb. exists (fun r => (predicted d g fuel ps r j - wanted r j) * 1). split.
    + intros r Hr. rewrite <- (Pick (fun c => predicted d g fuel ps r c - wanted r c)). apply Dir; [exact Hr|intros id N; split; [reflexivity|now apply only_elsewhere]|]. intros c Hc. unfold none. rewrite only_here, Eb.
      rewrite (Sum_zero rops Ropp rring) by (intros; cbn; ring). cbn [zero rops Nat.eqb andb]. rewrite andb_true_r. destruct (Nat.eqb c j); ring.
    + rewrite (entry_is _ _ _ _ _ 0 j 0 (Hb Eb)) by lia. f_equal. f_equal. unfold went_biases. f_equal. apply total_ext. intros r _. fold g. ring.
Qed.
Print Assumptions classifier_step_partial.

(** ** One layer *)
Section One.
Context (ps : list (list nat)) (d : dsl) (b : building).
Context (D : ModelFile_Proofs.described ps d) (HI : forall i v, nth_error (ModelFile_Model.vertices d) i = Some v -> nth i ps [] = [] -> ModelFile_Model.acceptsInput v = true) (B : ModelFile_Model.build d = Ok b).
Context (NV : ModelFile_Model.vertices d <> []) (OE : outputs_end d) (EO : ends_are_outputs d) (NS : no_sharing d) (sh : nat -> shape) (W : well_shaped d b sh) (TR : trainable d b sh).
Notation g := (network d b).
Context (o : nat) (v : vertex) (m n : nat) (C : classifier d g sh o v m n) (HV : ModelFile_Model.acceptsInput v = true).
(** How fast the cross entropy of a record changes, when the learning rates grow from 0. *)
Definition speed (rate bias_rate : R) (fuel : nat) (pa : nat -> params) (r : example) : R :=
  SumR n (fun c => score d g pa r o v c * (predicted d g fuel pa r c - wanted r c) ^ 2) * (rate * SumR m (fun i => arrives d g pa r o i ^ 2) + (if ModelFile_Model.use_bias v then bias_rate else 0)).
Lemma step_slope : exists fuel0, forall fuel pa r rate bias_rate, (fuel0 <= fuel)%nat -> prepared d g sh pa [r] -> exists P : R -> nat -> params, P 0 = pa /\
  (forall s, s <> 0 -> train_batch d g Loss_Model.cce fuel (gradient_descent (s * rate) (s * bias_rate)) pa [r] = Ok (P s)) /\ D0 (fun s => cross_entropy d g fuel n (P s) r) (- speed rate bias_rate fuel pa r).
Proof.
  destruct (batch_went ps d b D HI B NV OE EO NS sh W TR o v m n C) as [fuel0 H]. exists fuel0. intros fuel pa r rate bias_rate Hf Pp. destruct (H fuel Hf) as [Pr HB].
  set (P := fun s => if Req_EM_T s 0 then pa else match train_batch d g Loss_Model.cce fuel (gradient_descent (s * rate) (s * bias_rate)) pa [r] with Ok pa' => pa' | _ => pa end).
  assert (P0 : P 0 = pa) by (unfold P; destruct (Req_EM_T 0 0); [reflexivity|contradiction]).
  assert (Ps : forall s, s <> 0 -> train_batch d g Loss_Model.cce fuel (gradient_descent (s * rate) (s * bias_rate)) pa [r] = Ok (P s)) by (intros s Hs; destruct (HB pa [r] (s * rate) (s * bias_rate) Pp) as (pa' & Ep & _); unfold P; destruct (Req_EM_T s 0); [contradiction|]; now rewrite Ep).
  exists P. split; [exact P0|]. split; [exact Ps|]. destruct Pp as (F & Ne & E). pose proof (Forall_inv E) as (G & Fo & La). pose proof C as (C1 & C2 & C3 & C4 & C5 & C6 & C7 & C8 & C9 & C10).
  destruct (output_fits v m n C3 C8 C9 (pa o) (F o v C2)) as [Fw Fb].
  assert (Q : forall s, all_fit d (P s) /\ is_tensor (weights (P s o)) m n 1 (fun i j _ => entry (weights (pa o)) i j 0 - s * rate * went_weights d b o v m pa fuel [r] i j) /\
    (ModelFile_Model.use_bias v = true -> is_tensor (biases (P s o)) 1 n 1 (fun _ j _ => entry (biases (pa o)) 0 j 0 - s * bias_rate * went_biases d b o v pa fuel [r] j))).
  { intros s. destruct (Req_EM_T s 0) as [->|Hs].
    - rewrite P0. split; [exact F|]. split; [|intros Eb]; (eapply is_tensor_ext; [first [exact Fw|exact (Fb Eb)]|]); intros i j k Hi Hj Hk; cbv beta; (assert (k = 0)%nat as -> by lia); [|assert (i = 0)%nat as -> by lia]; ring.
    - destruct (HB pa [r] (s * rate) (s * bias_rate) (conj F (conj Ne E))) as (pa' & Ep & Fp & Hw & Hb). rewrite (Ps s Hs) in Ep. injection Ep as ->. auto. }
  assert (Rw : forall s, row d b o m (P s) r = row d b o m pa r) by (intros s; unfold row, xs_of; rewrite (proj1 (head_ins ps d b D HI B o v C2) HV); reflexivity).
  set (k := fun c => score d g pa r o v c * (predicted d g fuel pa r c - wanted r c)). set (size := rate * SumR m (fun i => arrives d g pa r o i ^ 2) + (if ModelFile_Model.use_bias v then bias_rate else 0)).
  pose proof (entropy_slope ps d b D HI B sh W o v m n C fuel r P (fun c => - (k c * size)) Pr G Fo La (fun s => proj1 (Q s))) as Sl. rewrite P0 in Sl.
  eapply D_val; [apply Sl|].
  - intros s c Hc. rewrite (score_is ps d b D HI B sh W o v m n C (P s) r c (proj1 (Q s)) G), (score_is ps d b D HI B sh W o v m n C pa r c F G), Rw. unfold row_score. destruct (Q s) as (_ & Hw & Hb).
    assert (Qw : SumR m (fun i => entry (row d b o m pa r) 0 i 0 * entry (weights (P s o)) i c 0) = SumR m (fun i => entry (row d b o m pa r) 0 i 0 * entry (weights (pa o)) i c 0 + - (s * rate * k c) * arrives d g pa r o i ^ 2)).
    { apply SumR_ext. intros i Hi. rewrite (entry_is _ _ _ _ _ i c 0 Hw) by lia. rewrite (arrives_is ps d b D HI B sh W o v m n C pa r i F G). unfold went_weights, k, total. cbn [fold_right length INR]. field. }
    rewrite Qw, SumR_add, SumR_mul_l. unfold size. destruct (ModelFile_Model.use_bias v); [|ring]. rewrite (entry_is _ _ _ _ _ 0 c 0 (Hb eq_refl)) by lia. unfold went_biases, total. cbn [fold_right length INR]. fold (k c). field.
  - unfold speed. fold size. match goal with |- _ = - (?x * size) => replace (- (x * size)) with (- size * x) by ring end. rewrite <- SumR_mul_l. apply SumR_ext. intros c _. unfold k. ring.
Qed.
End One.
Lemma SumR_sign : forall n h, (forall i, (i < n)%nat -> 0 <= h i) -> (exists i, (i < n)%nat /\ 0 < h i) -> 0 < SumR n h.
Proof.
  assert (Q : forall n h, (forall i, (i < n)%nat -> 0 <= h i) -> 0 <= SumR n h) by (induction n as [|n IH]; intros h H; cbn [Sum]; [apply Rle_refl|apply Rplus_le_le_0_compat; [apply IH; intros; apply H; lia|apply H; lia]]).
  induction n as [|n IH]; intros h H (i & Hi & Pi); [lia|]. cbn [Sum add rops]. destruct (Nat.eq_dec i n) as [->|N].
  - apply Rplus_le_lt_0_compat; [apply Q; intros; apply H; lia|exact Pi].
  - apply Rplus_lt_le_0_compat; [apply IH; [intros; apply H; lia|]|apply H; lia]. exists i. split; [lia|exact Pi].
Qed.
(** Something to learn from: the prediction is not yet the truth, and the layer has a bias or gets a value that is not 0. *)
Definition to_learn (d : dsl) (g : graph) (fuel : nat) (ps : nat -> params) (r : example) (o : nat) (v : vertex) (m n : nat) : Prop :=
  (exists c, (c < n)%nat /\ predicted d g fuel ps r c <> wanted r c) /\ (ModelFile_Model.use_bias v = true \/ exists i, (i < m)%nat /\ arrives d g ps r o i <> 0).
Lemma sizes : forall d g ps r o v m rate bias_rate, 0 < rate -> 0 < bias_rate -> (ModelFile_Model.use_bias v = true \/ exists i, (i < m)%nat /\ arrives d g ps r o i <> 0) -> 0 < rate * SumR m (fun i => arrives d g ps r o i ^ 2) + (if ModelFile_Model.use_bias v then bias_rate else 0).
Proof.
  intros d g ps r o v m rate bias_rate Hr Hb H. assert (N : forall i, 0 <= arrives d g ps r o i ^ 2) by (intros; apply pow2_ge_0). destruct (ModelFile_Model.use_bias v).
  - assert (Q : 0 <= SumR m (fun i => arrives d g ps r o i ^ 2)) by (clear - N; induction m as [|m IH]; cbn [Sum add rops]; [apply Rle_refl|apply Rplus_le_le_0_compat; auto]). apply Rplus_le_lt_0_compat; [apply Rmult_le_pos; lra|exact Hb].
  - destruct H as [H|(i & Hi & Ni)]; [discriminate|]. rewrite Rplus_0_r. apply Rmult_lt_0_compat; [exact Hr|]. apply SumR_sign; [auto|]. exists i. split; [exact Hi|]. now apply pow2_gt_0.
Qed.

(** A classifier of one layer trained on one record with small learning rates gets better if all its scores are positive... *)
(** Partial, C105: one layer and one record; scores of both signs are left out (see [classifier_step_partial]). *)
Theorem positive_scores_learn_partial : forall cs opt r0 rb0 l d net sh o v m n, ModelFile_Spec.joins_something cs -> ModelFile_Model.run cs (ModelFile_Model.new_dsl opt r0 rb0 l) = Ok d -> ModelFile_Model.build d = Ok net ->
  ModelFile_Model.vertices d <> [] -> outputs_end d -> ends_are_outputs d -> no_sharing d -> well_shaped d net sh -> trainable d net sh -> classifier d (network d net) sh o v m n -> ModelFile_Model.acceptsInput v = true ->
  exists fuel0, forall fuel ps r, (fuel0 <= fuel)%nat -> prepared d (network d net) sh ps [r] -> to_learn d (network d net) fuel ps r o v m n -> (forall c, (c < n)%nat -> 0 < score d (network d net) ps r o v c) ->
  forall rate bias_rate, 0 < rate -> 0 < bias_rate -> exists most, 0 < most /\ forall s, 0 < s < most ->
    exists ps', train_batch d (network d net) Loss_Model.cce fuel (gradient_descent (s * rate) (s * bias_rate)) ps [r] = Ok ps' /\ cross_entropy d (network d net) fuel n ps' r < cross_entropy d (network d net) fuel n ps r.
Proof.
  intros cs opt r0 rb0 l d net sh o v m n J Rn Bd NV OE EO NS W TR C HV. destruct (ModelFile_Props.program_ok _ _ _ _ _ _ J Rn) as [D HI].
  destruct (step_slope _ d net D HI Bd NV OE EO NS sh W TR o v m n C HV) as [fuel0 H]. exists fuel0. intros fuel ps r Hf Pp [(c0 & Hc0 & Nc0) TL] Sc rate bias_rate Hr Hb.
  destruct (H fuel ps r rate bias_rate Hf Pp) as (P & P0 & Ps & Dc). assert (Ng : - speed d net o v m n rate bias_rate fuel ps r < 0).
  { apply Ropp_lt_gt_0_contravar. unfold speed. apply Rmult_lt_0_compat; [|now apply sizes]. apply SumR_sign.
    - intros c Hc. apply Rmult_le_pos; [left; now apply Sc|apply pow2_ge_0].
    - exists c0. split; [exact Hc0|]. apply Rmult_lt_0_compat; [now apply Sc|]. apply pow2_gt_0. lra. }
  destruct (falls _ _ Dc Ng) as (most & Hm & Fl). exists most. split; [exact Hm|]. intros s Hs. exists (P s). split; [apply Ps; lra|]. specialize (Fl s Hs). cbv beta in Fl. rewrite P0 in Fl. exact Fl.
Qed.
Print Assumptions positive_scores_learn_partial.

(** ... and worse if all of them are negative (refuted): whatever the weights, the record and the learning rates are, if these are small enough. *)
Theorem negative_scores_unlearn_refuted : forall cs opt r0 rb0 l d net sh o v m n, ModelFile_Spec.joins_something cs -> ModelFile_Model.run cs (ModelFile_Model.new_dsl opt r0 rb0 l) = Ok d -> ModelFile_Model.build d = Ok net ->
  ModelFile_Model.vertices d <> [] -> outputs_end d -> ends_are_outputs d -> no_sharing d -> well_shaped d net sh -> trainable d net sh -> classifier d (network d net) sh o v m n -> ModelFile_Model.acceptsInput v = true ->
  exists fuel0, forall fuel ps r, (fuel0 <= fuel)%nat -> prepared d (network d net) sh ps [r] -> to_learn d (network d net) fuel ps r o v m n -> (forall c, (c < n)%nat -> score d (network d net) ps r o v c < 0) ->
  forall rate bias_rate, 0 < rate -> 0 < bias_rate -> exists most, 0 < most /\ forall s, 0 < s < most ->
    exists ps', train_batch d (network d net) Loss_Model.cce fuel (gradient_descent (s * rate) (s * bias_rate)) ps [r] = Ok ps' /\ cross_entropy d (network d net) fuel n ps r < cross_entropy d (network d net) fuel n ps' r.
Proof.
  intros cs opt r0 rb0 l d net sh o v m n J Rn Bd NV OE EO NS W TR C HV. destruct (ModelFile_Props.program_ok _ _ _ _ _ _ J Rn) as [D HI].
  destruct (step_slope _ d net D HI Bd NV OE EO NS sh W TR o v m n C HV) as [fuel0 H]. exists fuel0. intros fuel ps r Hf Pp [(c0 & Hc0 & Nc0) TL] Sc rate bias_rate Hr Hb.
  destruct (H fuel ps r rate bias_rate Hf Pp) as (P & P0 & Ps & Dc). assert (Ng : speed d net o v m n rate bias_rate fuel ps r < 0).
  { apply Ropp_lt_cancel. rewrite Ropp_0. unfold speed. rewrite Ropp_mult_distr_l. apply Rmult_lt_0_compat; [|now apply sizes].
    match goal with |- 0 < - ?x => replace (- x) with (-1 * x) by ring end. rewrite <- SumR_mul_l. apply SumR_sign.
    - intros c Hc. specialize (Sc c Hc). pose proof (pow2_ge_0 (predicted d (network d net) fuel ps r c - wanted r c)) as N. rewrite <- Rmult_assoc. apply Rmult_le_pos; lra.
    - exists c0. split; [exact Hc0|]. specialize (Sc c0 Hc0). rewrite <- Rmult_assoc. apply Rmult_lt_0_compat; [lra|]. apply pow2_gt_0. lra. }
  apply (D_scale (-1)) in Dc. destruct (falls _ _ Dc ltac:(lra)) as (most & Hm & Fl). exists most. split; [exact Hm|]. intros s Hs. exists (P s). split; [apply Ps; lra|]. specialize (Fl s Hs). cbv beta in Fl. rewrite P0 in Fl. lra.
Qed.
Print Assumptions negative_scores_unlearn_refuted.

(** ** Examples *)
From Verif Require Import Chars NumText_Model.
Import ModelFile_Model ModelFile_Spec ModelFile_Props Net_Props.
Local Open Scope R_scope.
Lemma uniform_is : forall r c k (x : R), is_tensor (uniform r c k x) r c k (fun _ _ _ => x).
Proof. intros. repeat split. Qed.
Lemma uniform_entry : forall r c k (x : R) i j l, entry (uniform r c k x) i j l = x.
Proof. reflexivity. Qed.
(** One layer that chooses between two labels, with all weights and biases [x], and a record of the first label: the scores are [3 * x]. *)
Definition choice : list call := [Add_input full (1, 2, 1)%N (1, 2, 1)%N true softmax; Change (Use_bias true) 1; Change (Use_l2 false) 1].
Definition choice_shapes (_ : nat) : Layer_Model.shape := (1, 2, 1)%nat.
Definition flat (x : R) (_ : nat) : params := {| weights := uniform 2 2 1 x; kernels := []; biases := uniform 1 2 1 x |}.
Definition first_label : T := {| rows := 1; cols := 2; chans := 1; get := fun _ c _ => Ok (if Nat.eqb c 0 then 1 else 0) |}.
Definition picked : example := {| given := [uniform 1 2 1 1%R]; truth := [first_label]; random := fun _ _ _ _ => 0%R |}.
Lemma first_label_is : is_tensor first_label 1 2 1 (fun _ c _ => if Nat.eqb c 0 then 1 else 0).
Proof. repeat split. Qed.
Lemma first_label_entry : forall i c k, entry first_label i c k = if Nat.eqb c 0 then 1 else 0.
Proof. reflexivity. Qed.
Lemma choice_is : forall x d net v, joins_something choice -> run choice (new_dsl sgd 5 5 categoricalCrossEntropy) = Ok d -> build d = Ok net -> outputs_end d -> well_shaped d net choice_shapes -> classifier d (network d net) choice_shapes 1 v 2 2 ->
  vertices d = [v] -> inputReceptors d = [1%nat] -> connections net = [] -> use_bias v = true ->
  exists fuel0, forall fuel, (fuel0 <= fuel)%nat -> prepared d (network d net) choice_shapes (flat x) [picked] /\ to_learn d (network d net) fuel (flat x) picked 1 v 2 2 /\ forall c, (c < 2)%nat -> score d (network d net) (flat x) picked 1 v c = 3 * x.
Proof.
  intros x d net v J Rn Bd OE W C Ev Er Ec Ub. destruct (ModelFile_Props.program_ok _ _ _ _ _ _ J Rn) as [D HI]. pose proof C as (C1 & C2 & C3 & C4 & C5 & C6 & C7 & C8 & C9 & C10).
  assert (F : all_fit d (flat x)). { intros id u E. pose proof (proj1 (ModelFile_Proofs.vertex_at_ok d id u) E) as [R _]. rewrite Ev in R. cbn in R. assert (id = 1%nat) as -> by lia. rewrite C2 in E. injection E as <-. unfold fit. rewrite C3, C8, C9. split; [intros _; eexists; apply uniform_is|split; [discriminate|intros _; eexists; apply uniform_is]]. }
  assert (G : given_fit d (given picked)). { unfold given_fit. rewrite Er. constructor; [|constructor]. exists v. split; [exact C2|]. rewrite C8. eexists. apply uniform_is. }
  assert (Sc : forall c, (c < 2)%nat -> score d (network d net) (flat x) picked 1 v c = 3 * x).
  { intros c Hc. unfold score. rewrite Ub, C8. cbn [volume Nat.mul Nat.add]. cbn [Sum add zero rops]. assert (A : forall i, (i < 2)%nat -> Classifier_Spec.arrives d (network d net) (flat x) picked 1 i = 1).
    { intros i Hi. unfold Classifier_Spec.arrives. cbn [inputs_of]. unfold ins, network, to. cbn [conns heads]. rewrite Ec, Er. cbn [filter map Nat.eqb combine]. cbn. reflexivity. }
    rewrite !A by lia. cbn [flat weights biases]. rewrite !uniform_entry. ring. }
  destruct (prediction _ d net D HI Bd OE choice_shapes W 1 v 2 2 C) as [fuel0 H]. exists fuel0. intros fuel Hf. split; [|split; [|exact Sc]].
  - split; [exact F|]. split; [discriminate|]. constructor; [|constructor]. split; [exact G|]. split.
    + unfold outputs_fit. rewrite C1. constructor; [|constructor]. eexists. apply first_label_is.
    + exists first_label. split; [reflexivity|]. cbn [cols first_label Sum add zero rops]. rewrite !first_label_entry. cbn [Nat.eqb]. ring.
  - split; [|now left]. exists 0%nat. split; [lia|]. rewrite (predicted_is _ d net D HI Bd choice_shapes W 1 v 2 2 C fuel (flat x) picked 0 (H fuel Hf) F G) by lia.
    unfold share. cbn [Sum add zero rops]. rewrite !Sc by lia. unfold wanted. cbn [truth picked]. rewrite !first_label_entry. cbn [Nat.eqb].
    pose proof (exp_pos (3 * x)) as P. replace (exp (3 * x) / (0 + exp (3 * x) + exp (3 * x))) with (/ 2) by (field; lra). lra.
Qed.
Definition choice_trains (x : R) : Prop := joins_something choice /\ exists d, run choice (new_dsl sgd 5 5 categoricalCrossEntropy) = Ok d /\ exists net, build d = Ok net /\
  vertices d <> [] /\ outputs_end d /\ ends_are_outputs d /\ no_sharing d /\ well_shaped d net choice_shapes /\ trainable d net choice_shapes /\ exists v, classifier d (network d net) choice_shapes 1 v 2 2 /\ acceptsInput v = true /\
  exists fuel0, forall fuel, (fuel0 <= fuel)%nat -> prepared d (network d net) choice_shapes (flat x) [picked] /\ to_learn d (network d net) fuel (flat x) picked 1 v 2 2 /\ forall c, (c < 2)%nat -> score d (network d net) (flat x) picked 1 v c = 3 * x.
Ltac start_example H HB :=
  split; [solve [no_empty]|]; run_program H; eexists; match goal with |- ?x = _ /\ _ => eassert (HB : x = Ok _) by (cbv -[IZR to_float Rdiv vertex_record edge_record asString_float asString_id lit optimizerTypeToString lossTypeToString]; reflexivity) end; split; [exact HB|];
  split; [discriminate|].
Example ex_choice : forall x, choice_trains x.
Proof.
  intros x. unfold choice_trains. start_example H HB.
  assert (OE : outputs_end _) by (match type of H with run _ _ = Ok ?d => instantiate (1 := d) end; unfold outputs_end; each_in). split; [exact OE|]. split; [unfold ends_are_outputs; each_in|]. split; [unfold no_sharing; each_in|].
  assert (W : well_shaped _ _ choice_shapes) by (match type of H with run _ _ = Ok ?d => match type of HB with _ = Ok ?net => instantiate (2 := d); instantiate (1 := net) end end; each_vertex E; reflexivity). split; [exact W|].
  split. { each_vertex E; cbn; intros Z; exfalso; change (Pos.to_nat 1) with 1%nat in Z; lia. }
  match type of H with run _ _ = Ok ?d => match type of HB with _ = Ok ?net => match eval cbn in (vertices d) with [?v] => exists v; assert (C : classifier d (network d net) choice_shapes 1 v 2 2) by (repeat split) end end end. split; [exact C|].
  split; [reflexivity|]. eapply (choice_is x _ _ _ ltac:(no_empty) H HB OE W C); reflexivity.
Qed.
(** So this layer gets worse if all its weights and biases are -1, and better if all of them are 1. *)
Example ex_choice_unlearns : exists d net fuel0, run choice (new_dsl sgd 5 5 categoricalCrossEntropy) = Ok d /\ build d = Ok net /\ forall fuel, (fuel0 <= fuel)%nat -> exists most, 0 < most /\ forall s, 0 < s < most ->
  exists ps', train_batch d (network d net) Loss_Model.cce fuel (gradient_descent (s * 1) (s * 1)) (flat (-1)) [picked] = Ok ps' /\ cross_entropy d (network d net) fuel 2 (flat (-1)) picked < cross_entropy d (network d net) fuel 2 ps' picked.
Proof.
  destruct (ex_choice (-1)) as (J & d & Rn & net & Bd & NV & OE & EO & NS & W & TR & v & C & A & f1 & H1). destruct (negative_scores_unlearn_refuted _ _ _ _ _ _ _ _ _ _ _ _ J Rn Bd NV OE EO NS W TR C A) as [f2 H2].
  exists d, net, (f1 + f2)%nat. split; [exact Rn|]. split; [exact Bd|]. intros fuel Hf. destruct (H1 fuel ltac:(lia)) as (Pp & TL & Sc). apply (H2 fuel _ picked ltac:(lia) Pp TL); [|lra|lra]. intros c Hc. rewrite Sc by exact Hc. lra.
Qed.
Example ex_choice_learns : exists d net fuel0, run choice (new_dsl sgd 5 5 categoricalCrossEntropy) = Ok d /\ build d = Ok net /\ forall fuel, (fuel0 <= fuel)%nat -> exists most, 0 < most /\ forall s, 0 < s < most ->
  exists ps', train_batch d (network d net) Loss_Model.cce fuel (gradient_descent (s * 1) (s * 1)) (flat 1) [picked] = Ok ps' /\ cross_entropy d (network d net) fuel 2 ps' picked < cross_entropy d (network d net) fuel 2 (flat 1) picked.
Proof.
  destruct (ex_choice 1) as (J & d & Rn & net & Bd & NV & OE & EO & NS & W & TR & v & C & A & f1 & H1). destruct (positive_scores_learn_partial _ _ _ _ _ _ _ _ _ _ _ _ J Rn Bd NV OE EO NS W TR C A) as [f2 H2].
  exists d, net, (f1 + f2)%nat. split; [exact Rn|]. split; [exact Bd|]. intros fuel Hf. destruct (H1 fuel ltac:(lia)) as (Pp & TL & Sc). apply (H2 fuel _ picked ltac:(lia) Pp TL); [|lra|lra]. intros c Hc. rewrite Sc by exact Hc. lra.
Qed.
(** A hidden layer before the one that chooses the label. *)
Definition deeper : list call := [Add_input full (1, 2, 1)%N (1, 3, 1)%N false relu; Change (Use_bias true) 1; Add_layer 1 (1, 3, 1)%N (1, 2, 1)%N full true softmax; Change (Use_bias true) 2; Change (Use_l2 false) 2].
Definition deeper_shapes (id : nat) : Layer_Model.shape := match id with 1%nat => (1, 3, 1)%nat | _ => (1, 2, 1)%nat end.
Definition deeper_values (id : nat) : params := match id with 1%nat => {| weights := uniform 2 3 1 1%R; kernels := []; biases := uniform 1 3 1 1%R |} | _ => {| weights := uniform 3 2 1 (-1)%R; kernels := []; biases := uniform 1 2 1 1%R |} end.
Example ex_deeper : joins_something deeper /\ exists d, run deeper (new_dsl sgd 5 5 categoricalCrossEntropy) = Ok d /\ exists net, build d = Ok net /\
  vertices d <> [] /\ outputs_end d /\ ends_are_outputs d /\ no_sharing d /\ well_shaped d net deeper_shapes /\ trainable d net deeper_shapes /\ (exists v, classifier d (network d net) deeper_shapes 2 v 3 2) /\
  prepared d (network d net) deeper_shapes deeper_values [picked; picked].
Proof.
  start_example H HB.
  split; [unfold outputs_end; each_in|]. split; [unfold ends_are_outputs; each_in|]. split; [unfold no_sharing; each_in|].
  split; [each_vertex E; reflexivity|]. split. { each_vertex E; cbn; intros Z; exfalso; change (Pos.to_nat 1) with 1%nat in Z; lia. }
  split. { match type of H with run _ _ = Ok ?d => match eval cbn in (vertices d) with [_; ?v] => exists v end end. repeat split. }
  match type of H with run _ _ = Ok ?d => match type of HB with _ = Ok ?net => assert (Q : given_fit d (given picked) /\ outputs_fit (network d net) deeper_shapes (truth picked) /\ labelled picked) end end.
  { split; [|split].
    - constructor; [|constructor]. eexists. split; [reflexivity|]. eexists. apply uniform_is.
    - constructor; [|constructor]. eexists. apply first_label_is.
    - exists first_label. split; [reflexivity|]. cbn [cols first_label Sum add zero rops]. rewrite !first_label_entry. cbn [Nat.eqb]. ring. }
  split. { each_vertex E; (split; [intros _; eexists; apply uniform_is|split; [discriminate|intros _; eexists; apply uniform_is]]). }
  split; [discriminate|]. constructor; [exact Q|]. constructor; [exact Q|constructor].
Qed.
