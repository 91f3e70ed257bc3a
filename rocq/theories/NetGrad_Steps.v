(** Proofs for C104: moving the parameters. *)
From Coquelicot Require Import Coquelicot.
From Coq Require Import List Arith Bool NArith Reals Lia Lra FunctionalExtensionality.
From Verif Require Import Outcome Tensor_Model Tensor_Spec Activation_Model Layer_Model Layer_Spec Graph_Model Graph_Spec Graph_Props Net_Model Net_Spec NetGrad_Spec.
From Verif Require Import Algebra_Proofs Layer_Proofs Net_Proofs Net_Vertex Net_Graph Net_Flow Net_Train NetGrad_Layers NetGrad_Flow NetGrad_Proofs.
From Verif Require ModelFile_Model ModelFile_Spec ModelFile_Proofs Loss_Model.
Import ListNotations.
Local Open Scope R_scope.

Lemma along_tensor : forall t u s r c k, shaped t (r, c, k) -> is_tensor (along s t u) r c k (fun i j l => entry t i j l + s * u i j l).
Proof. intros t u s r c k H. destruct (shaped_entry _ _ _ _ H) as (H1 & H2 & H3 & H4). repeat split; try assumption. intros i j l Hi Hj Hl. cbn [along get]. rewrite H4 by assumption. reflexivity. Qed.
Lemma along_curve : forall t u sh, shaped t sh -> curve (fun s => along s t u) sh /\ forall i j k, inside sh i j k -> slope (fun s => along s t u) i j k = u i j k.
Proof.
  intros t u [[r c] k] H. destruct (curve_of (fun s => along s t u) r c k (fun s i j l => entry t i j l + s * u i j l) u) as [C Sl].
  - intros a. now apply along_tensor.
  - intros i j l _ _ _. eapply D_val; [apply (D_add (fun _ => entry t i j l) (fun s => s * u i j l) 0 (1 * u i j l + 0 * 0) (D_const _))|ring]. apply (D_mul (fun s => s) (fun _ => u i j l) 1 0); [apply (is_derive_id (K := R_AbsRing))|apply D_const].
  - split; [exact C|]. intros i j l (A1 & A2 & A3). now apply Sl.
Qed.
Lemma along_zero : forall t u, along 0 t u = t.
Proof.
  intros [r c k gt] u. unfold along. cbn [rows cols chans get]. f_equal. apply functional_extensionality. intros i. apply functional_extensionality. intros j. apply functional_extensionality. intros l. destruct (gt i j l); cbn [obind]; try reflexivity. f_equal. ring.
Qed.
Lemma moved_zero : forall ps dw db, moved ps dw db 0 = ps.
Proof. intros ps dw db. apply functional_extensionality. intros id. unfold moved. rewrite !along_zero. now destruct (ps id). Qed.
Lemma moved_moves : forall d ps dw db, all_fit d ps -> path_moves d (moved ps dw db) dw db.
Proof.
  intros d ps dw db F id v Ev. destruct (F id v Ev) as (F1 & _ & F3). split; intros E; [specialize (F1 E)|specialize (F3 E)]; unfold weights_move, biases_move, moved; cbn [weights biases]; apply along_curve; assumption.
Qed.
Lemma dot_nonneg : forall r c k f, 0 <= dot r c k f f.
Proof.
  intros r c k f. assert (Q : forall n h, (forall i, (i < n)%nat -> 0 <= h i) -> 0 <= SumR n h) by (induction n as [|n IH]; intros h H; cbn [Sum]; [apply Rle_refl|apply Rplus_le_le_0_compat; [apply IH; intros; apply H; lia|apply H; lia]]).
  unfold dot. apply Q. intros l _. apply Q. intros i _. apply Q. intros j _. cbn [mul rops]. apply Rle_0_sqr.
Qed.
Lemma SumR_null : forall n h, (forall i, (i < n)%nat -> 0 <= h i) -> SumR n h = 0 -> forall i, (i < n)%nat -> h i = 0.
Proof.
  assert (Q : forall n h, (forall i, (i < n)%nat -> 0 <= h i) -> 0 <= SumR n h) by (induction n as [|n IH]; intros h H; cbn [Sum]; [apply Rle_refl|apply Rplus_le_le_0_compat; [apply IH; intros; apply H; lia|apply H; lia]]).
  induction n as [|n IH]; intros h H E i Hi; [lia|]. cbn [Sum add rops] in E. pose proof (Q n h ltac:(intros; apply H; lia)) as Q1. pose proof (H n ltac:(lia)) as Q2.
  destruct (Nat.eq_dec i n) as [->|N]; [clear - E Q1 Q2; lra|]. apply IH; [intros; apply H; lia|clear - E Q1 Q2; lra|lia].
Qed.
Lemma dot_null : forall r c k f, dot r c k f f = 0 -> forall i j l, (i < r)%nat -> (j < c)%nat -> (l < k)%nat -> f i j l = 0.
Proof.
  intros r c k f H i j l Hi Hj Hl. unfold dot in H. cbn [mul rops] in H. assert (Q : forall n h, (forall i, (i < n)%nat -> 0 <= h i) -> 0 <= SumR n h) by (induction n as [|n IH]; intros h Hh; cbn [Sum]; [apply Rle_refl|apply Rplus_le_le_0_compat; [apply IH; intros; apply Hh; lia|apply Hh; lia]]).
  assert (Sq : forall x, 0 <= x * x) by (intros; apply Rle_0_sqr).
  pose proof (SumR_null _ _ ltac:(intros; apply Q; intros; apply Q; intros; apply Sq) H l Hl) as H1. cbv beta in H1.
  pose proof (SumR_null _ _ ltac:(intros; apply Q; intros; apply Sq) H1 i Hi) as H2. cbv beta in H2.
  pose proof (SumR_null _ _ ltac:(intros; apply Sq) H2 j Hj) as H3. cbv beta in H3. now apply Rsqr_0_uniq.
Qed.
Lemma falls : forall (c : R -> R) G, is_derive c 0 G -> G < 0 -> exists r, 0 < r /\ forall s, 0 < s < r -> c s < c 0.
Proof.
  intros c G H N. apply is_derive_Reals in H. destruct (H (- G / 2) ltac:(lra)) as [dl Hd]. exists (pos dl). split; [apply cond_pos|]. intros s [S1 S2]. assert (Hs : s <> 0) by lra. specialize (Hd s Hs ltac:(rewrite Rabs_right; lra)). rewrite Rplus_0_l in Hd. apply Rabs_def2 in Hd as [Hd _].
  assert (Q : (c s - c 0) / s < 0) by lra. assert (Q' : c s - c 0 = (c s - c 0) / s * s) by (field; exact Hs). apply Ropp_lt_gt_contravar in Q. assert (0 < - ((c s - c 0) / s) * s) by (apply Rmult_lt_0_compat; lra). lra.
Qed.


Section Step.
Context (d : dsl).
Lemma over_scale_r : forall s a f h, over s f (fun i j k => a * h i j k) = a * over s f h.
Proof. intros [[r c] k] a f h. unfold over, dot. rewrite <- SumR_mul_l. apply SumR_ext. intros l _. rewrite <- SumR_mul_l. apply SumR_ext. intros i _. rewrite <- SumR_mul_l. apply SumR_ext. intros j _. cbn [mul rops]. ring. Qed.
Lemma way_is : forall pa pa' rw rb gw gb dw db, went d pa pa' rw rb gw gb -> way d pa pa' dw db = - gradient_sum d gw gb (fun id i j k => rw * dw id i j k) (fun id i j k => rb * db id i j k).
Proof.
  intros pa pa' rw rb gw gb dw db H. unfold way, gradient_sum. match goal with |- _ = - over_vertices d ?f => transitivity (-1 * over_vertices d f); [|ring] end.
  rewrite <- over_scale. apply over_ext. intros id v Ev. destruct (H id v Ev) as [H1 H2]. rewrite Rmult_plus_distr_l. f_equal.
  - destruct (is_full v) eqn:Ef; [|ring]. apply is_full_iff in Ef. specialize (H1 Ef). rewrite over_scale_r. unfold weights_shape, over in *. transitivity (- rw * dot (volume (input_shape v)) (volume (output_shape v)) 1 (gw id) (dw id)); [|ring].
    rewrite <- dot_scale_l. apply dot_ext. intros i j l Hi Hj Hl. split; [|reflexivity]. rewrite (entry_is _ _ _ _ _ i j l H1 Hi Hj Hl). ring.
  - destruct (ModelFile_Model.use_bias v); [|ring]. specialize (H2 eq_refl). rewrite over_scale_r. unfold over in *. destruct (output_shape v) as [[r c] k]. transitivity (- rb * dot r c k (gb id) (db id)); [|ring].
    rewrite <- dot_scale_l. apply dot_ext. intros i j l Hi Hj Hl. split; [|reflexivity]. rewrite (entry_is _ _ _ _ _ i j l H2 Hi Hj Hl). ring.
Qed.
Lemma null_gradient : forall gw gb, gradient_sum d gw gb gw gb = 0 -> forall id v, ModelFile_Model.vertex_at d id = Ok v ->
  (ModelFile_Model.node_type v = ModelFile_Model.full -> forall i j k, inside (weights_shape v) i j k -> gw id i j k = 0) /\ (ModelFile_Model.use_bias v = true -> forall i j k, inside (output_shape v) i j k -> gb id i j k = 0).
Proof.
  intros gw gb H. set (h := fun id v => (if is_full v then over (weights_shape v) (gw id) (gw id) else 0) + (if ModelFile_Model.use_bias v then over (output_shape v) (gb id) (gb id) else 0)).
  assert (N1 : forall s f, 0 <= over s f f) by (intros [[r c] k] f; apply dot_nonneg).
  assert (N2 : forall id v, 0 <= h id v) by (intros id v; unfold h; apply Rplus_le_le_0_compat; [destruct (is_full v)|destruct (ModelFile_Model.use_bias v)]; try apply N1; apply Rle_refl).
  assert (Z : forall id, In id (seq 1 (length (ModelFile_Model.vertices d))) -> match ModelFile_Model.vertex_at d id with Ok v => h id v | _ => 0 end = 0).
  { unfold gradient_sum, over_vertices in H. fold h in H. revert H. generalize (seq 1 (length (ModelFile_Model.vertices d))). set (f := fun id => match ModelFile_Model.vertex_at d id with Ok v => h id v | _ => 0 end).
    change (forall l, total f l = 0 -> forall id, In id l -> f id = 0). assert (Nf : forall id, 0 <= f id) by (intros id; unfold f; destruct (ModelFile_Model.vertex_at d id); [apply N2|apply Rle_refl|apply Rle_refl]). clearbody f. clear - Nf.
    assert (Nt : forall l, 0 <= total f l) by (induction l as [|x l IH]; [apply Rle_refl|change (0 <= f x + total f l); apply Rplus_le_le_0_compat; auto]).
    induction l as [|x l IH]; intros E id I; [destruct I|]. change (f x + total f l = 0) in E. pose proof (Nf x). pose proof (Nt l). destruct I as [<-|I]; [lra|]. apply IH; [lra|exact I]. }
  intros id v Ev. assert (Iid : In id (seq 1 (length (ModelFile_Model.vertices d)))) by (apply ModelFile_Proofs.vertex_at_ok in Ev; apply in_seq; lia). specialize (Z id Iid). rewrite Ev in Z. unfold h in Z. split.
  - intros Et i j k Hi. apply is_full_iff in Et. rewrite Et in Z. assert (Z1 : over (weights_shape v) (gw id) (gw id) = 0). { pose proof (N1 (weights_shape v) (gw id)). pose proof (N1 (output_shape v) (gb id)). destruct (ModelFile_Model.use_bias v); lra. }
    unfold over in Z1. destruct (weights_shape v) as [[r c] q]. destruct Hi as (A1 & A2 & A3). exact (dot_null r c q (gw id) Z1 i j k A1 A2 A3).
  - intros Et i j k Hi. rewrite Et in Z. assert (Z1 : over (output_shape v) (gb id) (gb id) = 0). { pose proof (N1 (weights_shape v) (gw id)). pose proof (N1 (output_shape v) (gb id)). destruct (is_full v); lra. }
    unfold over in Z1. destruct (output_shape v) as [[r c] q]. destruct Hi as (A1 & A2 & A3). exact (dot_null r c q (gb id) Z1 i j k A1 A2 A3).
Qed.
Lemma gradient_nonneg : forall gw gb, 0 <= gradient_sum d gw gb gw gb.
Proof.
  intros gw gb. assert (N1 : forall s f, 0 <= over s f f) by (intros [[r c] k] f; apply dot_nonneg). unfold gradient_sum, over_vertices. induction (seq 1 (length (ModelFile_Model.vertices d))) as [|id l IH]; [apply Rle_refl|]. unfold total in *. cbn [fold_right]. apply Rplus_le_le_0_compat; [|exact IH].
  destruct (ModelFile_Model.vertex_at d id) as [v| |]; try apply Rle_refl. apply Rplus_le_le_0_compat; [destruct (is_full v)|destruct (ModelFile_Model.use_bias v)]; try apply N1; apply Rle_refl.
Qed.
Lemma gradient_below : forall gw gb rw rb, 0 < rw -> 0 < rb -> gradient_sum d gw gb (fun id i j k => - rw * gw id i j k) (fun id i j k => - rb * gb id i j k) <= - (Rmin rw rb * gradient_sum d gw gb gw gb).
Proof.
  intros gw gb rw rb Hw Hb. assert (N1 : forall s f, 0 <= over s f f) by (intros [[r c] k] f; apply dot_nonneg). unfold gradient_sum. match goal with |- _ <= - (?m * over_vertices d ?f) => replace (- (m * over_vertices d f)) with (- m * over_vertices d f) by ring end. rewrite <- over_scale.
  unfold over_vertices. induction (seq 1 (length (ModelFile_Model.vertices d))) as [|id l IH]; [apply Rle_refl|]. unfold total in *. cbn [fold_right]. apply Rplus_le_compat; [|exact IH].
  destruct (ModelFile_Model.vertex_at d id) as [v| |]; try apply Rle_refl. rewrite Rmult_plus_distr_l. pose proof (Rmin_l rw rb) as M1. pose proof (Rmin_r rw rb) as M2. apply Rplus_le_compat.
  - destruct (is_full v); [|lra]. rewrite over_scale_r. apply Rmult_le_compat_r; [apply N1|lra].
  - destruct (ModelFile_Model.use_bias v); [|lra]. rewrite over_scale_r. apply Rmult_le_compat_r; [apply N1|lra].
Qed.
Lemma went_moves : forall pa (P : R -> nat -> params) rw rb gw gb, all_fit d pa -> P 0 = pa -> (forall a, a <> 0 -> went d pa (P a) (a * rw) (a * rb) gw gb) -> path_moves d P (fun id i j k => - rw * gw id i j k) (fun id i j k => - rb * gb id i j k).
Proof.
  intros pa P rw rb gw gb F P0 H id v Ev. destruct (F id v Ev) as (F1 & _ & F3).
  assert (Q : forall (X : R -> T) (t : T) (s : shape) (m : R) (h : fn), shaped t s -> X 0 = t -> (forall a, a <> 0 -> let '(r, c, k) := s in is_tensor (X a) r c k (fun i j l => entry t i j l - a * m * h i j l)) -> curve X s /\ forall i j k, inside s i j k -> slope X i j k = - m * h i j k).
  { intros X t [[r c] k] m h St X0 Hx. destruct (curve_of X r c k (fun a i j l => entry t i j l + a * (- m * h i j l)) (fun i j l => - m * h i j l)) as [C Sl].
    - intros a. destruct (Req_EM_T a 0) as [->|Na].
      + rewrite X0. eapply is_tensor_ext; [apply shaped_entry; exact St|]. intros i j l _ _ _. cbv beta. ring.
      + eapply is_tensor_ext; [exact (Hx a Na)|]. intros i j l _ _ _. cbv beta. ring.
    - intros i j l _ _ _. set (u := - m * h i j l). eapply D_val; [apply (D_add (fun _ => entry t i j l) (fun s => s * u) 0 (1 * u + 0 * 0) (D_const _))|ring]. apply (D_mul (fun s => s) (fun _ => u) 1 0); [apply (is_derive_id (K := R_AbsRing))|apply D_const].
    - split; [exact C|]. intros i j l (A1 & A2 & A3). now apply Sl. }
  split; intros E.
  - unfold weights_move. apply (Q (fun a => weights (P a id)) (weights (pa id)) (weights_shape v) rw (gw id)); [now apply F1|now rewrite P0|]. intros a Na. exact (proj1 (H a Na id v Ev) E).
  - unfold biases_move. apply (Q (fun a => biases (P a id)) (biases (pa id)) (output_shape v) rb (gb id)); [now apply F3|now rewrite P0|]. intros a Na. exact (proj2 (H a Na id v Ev) E).
Qed.
Lemma went_stays : forall pa pa' rw rb gw gb, all_fit d pa -> gradient_sum d gw gb gw gb = 0 -> went d pa pa' rw rb gw gb -> stays d pa pa'.
Proof.
  intros pa pa' rw rb gw gb F Z H id v Ev. destruct (F id v Ev) as (F1 & _ & F3). destruct (H id v Ev) as [H1 H2]. destruct (null_gradient gw gb Z id v Ev) as [Z1 Z2]. split; intros E i j k Hi.
  - specialize (F1 E). specialize (H1 E). specialize (Z1 E i j k). unfold weights_shape in *. destruct (shaped_entry _ _ _ _ F1) as (R1 & R2 & R3 & _). unfold in_range in Hi. rewrite R1, R2, R3 in Hi. destruct Hi as (A1 & A2 & A3). rewrite (entry_is _ _ _ _ _ i j k H1 A1 A2 A3), Z1; [ring|]. cbn. auto.
  - specialize (F3 E). specialize (H2 E). specialize (Z2 E i j k). destruct (output_shape v) as [[r c] q]. destruct (shaped_entry _ _ _ _ F3) as (R1 & R2 & R3 & _). unfold in_range in Hi. rewrite R1, R2, R3 in Hi. destruct Hi as (A1 & A2 & A3). rewrite (entry_is _ _ _ _ _ i j k H2 A1 A2 A3), Z2; [ring|]. cbn. auto.
Qed.
(** One weight, one bias. *)
Lemma over_one : forall s f i j k, inside s i j k -> over s f (fun i' j' k' => if Nat.eqb i' i && Nat.eqb j' j && Nat.eqb k' k then 1 else 0) = f i j k.
Proof.
  intros [[r c] q] f i j k (Hi & Hj & Hk). unfold over, dot. rewrite (Sum_one rops Ropp rring q _ k Hk).
  - rewrite (Sum_one rops Ropp rring r _ i Hi).
    + rewrite (Sum_one rops Ropp rring c _ j Hj); [rewrite !Nat.eqb_refl; cbn; ring|]. intros j' _ N. destruct (Nat.eqb_spec j' j); [contradiction|]. rewrite andb_false_r. cbn. ring.
    + intros i' _ N. apply (Sum_zero rops Ropp rring). intros j' _. destruct (Nat.eqb_spec i' i); [contradiction|]. cbn. ring.
  - intros k' _ N. apply (Sum_zero rops Ropp rring). intros i' _. apply (Sum_zero rops Ropp rring). intros j' _. destruct (Nat.eqb_spec k' k); [contradiction|]. rewrite andb_false_r. cbn. ring.
Qed.
Lemma over_null : forall s f (u : fn), (forall i j k, u i j k = 0) -> over s f u = 0.
Proof. intros [[r c] q] f u H. unfold over, dot. apply (Sum_zero rops Ropp rring). intros k _. apply (Sum_zero rops Ropp rring). intros i _. apply (Sum_zero rops Ropp rring). intros j _. rewrite H. cbn. ring. Qed.
Lemma over_vertices_one : forall id v f, ModelFile_Model.vertex_at d id = Ok v -> (forall id' v', ModelFile_Model.vertex_at d id' = Ok v' -> id' <> id -> f id' v' = 0) -> over_vertices d f = f id v.
Proof.
  intros id v f Ev H. unfold over_vertices. rewrite <- (total_pick (seq 1 (length (ModelFile_Model.vertices d))) id (f id v) (seq_NoDup _ _)).
  - apply total_ext. intros x _. destruct (Nat.eqb_spec id x) as [<-|N]; [now rewrite Ev|]. destruct (ModelFile_Model.vertex_at d x) eqn:Ex; try reflexivity. apply H; congruence.
  - apply ModelFile_Proofs.vertex_at_ok in Ev. apply in_seq. lia.
Qed.
Lemma only_here : forall id i j k, only id i j k id = fun i' j' k' => if Nat.eqb i' i && Nat.eqb j' j && Nat.eqb k' k then 1 else 0.
Proof. intros id i j k. unfold only. rewrite Nat.eqb_refl. reflexivity. Qed.
Lemma only_elsewhere : forall id i j k id', id' <> id -> forall a b c, only id i j k id' a b c = 0.
Proof. intros id i j k id' N a b c. unfold only. destruct (Nat.eqb_spec id' id); [contradiction|reflexivity]. Qed.
Lemma way_weight : forall pa pa' id v i j k, ModelFile_Model.vertex_at d id = Ok v -> ModelFile_Model.node_type v = ModelFile_Model.full -> inside (weights_shape v) i j k -> way d pa pa' (only id i j k) none = entry (weights (pa' id)) i j k - entry (weights (pa id)) i j k.
Proof.
  intros pa pa' id v i j k Ev Et Hi. unfold way. rewrite (over_vertices_one id v _ Ev).
  - apply is_full_iff in Et. rewrite Et, only_here, over_one by exact Hi. destruct (ModelFile_Model.use_bias v); [rewrite over_null by reflexivity|]; ring.
  - intros id' v' _ N. destruct (is_full v'); [rewrite over_null by (now apply only_elsewhere)|]; (destruct (ModelFile_Model.use_bias v'); [rewrite over_null by reflexivity|]; ring).
Qed.
Lemma way_bias : forall pa pa' id v i j k, ModelFile_Model.vertex_at d id = Ok v -> ModelFile_Model.use_bias v = true -> inside (output_shape v) i j k -> way d pa pa' none (only id i j k) = entry (biases (pa' id)) i j k - entry (biases (pa id)) i j k.
Proof.
  intros pa pa' id v i j k Ev Et Hi. unfold way. rewrite (over_vertices_one id v _ Ev).
  - rewrite Et, only_here, over_one by exact Hi. destruct (is_full v); [rewrite over_null by reflexivity|]; ring.
  - intros id' v' _ N. destruct (ModelFile_Model.use_bias v'); [rewrite over_null with (u := only id i j k id') by (now apply only_elsewhere)|]; (destruct (is_full v'); [rewrite over_null by reflexivity|]; ring).
Qed.
End Step.

(** ** Costs without regularization *)
Lemma record_cost_scale : forall d g fuel q a ps r, record_cost d g fuel (fun t y => a * q t y) ps r = a * record_cost d g fuel q ps r.
Proof.
  intros d g fuel q a ps r. unfold record_cost. destruct (snd (predict _ _ _ _ _)) as [ys| |]; try ring. rewrite <- total_scale. apply total_ext. intros [t y] _. cbn [fst snd]. unfold sum_of.
  rewrite <- SumR_mul_l. apply SumR_ext. intros k _. rewrite <- SumR_mul_l. apply SumR_ext. intros i _. rewrite <- SumR_mul_l. reflexivity.
Qed.
Lemma batch_cost_scale : forall d g fuel q a rs ps, unregularized d -> batch_cost d g fuel (fun t y => a * q t y) rs ps = a * batch_cost d g fuel q rs ps.
Proof.
  intros d g fuel q a rs ps U. assert (Z : penalty d ps = 0).
  { unfold penalty, over_vertices. apply total_zero. intros id _. destruct (ModelFile_Model.vertex_at d id) as [v| |] eqn:Ev; try reflexivity. destruct (is_full v); [|reflexivity]. unfold configured_strength. rewrite (U id v Ev). cbn. unfold Rdiv. ring. }
  unfold batch_cost. rewrite Z, !Rplus_0_r. rewrite (total_ext _ (fun r => a * record_cost d g fuel q ps r)) by (intros; apply record_cost_scale). rewrite total_scale. unfold Rdiv. ring.
Qed.
