(** Proofs for C105: the output layer with softmax in a network, and its update. *)
From Coquelicot Require Import Coquelicot.
From Coq Require Import List Arith Bool NArith Reals Lia Lra FunctionalExtensionality.
From Verif Require Import Outcome Tensor_Model Tensor_Spec Activation_Model Layer_Model Layer_Spec Graph_Model Graph_Spec Graph_Forward Graph_Props Graph_Back_Props Graph_Walk_Props Net_Model Net_Spec NetGrad_Spec Classifier_Spec.
From Verif Require Import Algebra_Proofs Layer_Proofs Net_Proofs Net_Vertex Net_Graph Net_Flow Net_Train NetGrad_Layers NetGrad_Flow NetGrad_Proofs Classifier_Proofs.
From Verif Require ModelFile_Model ModelFile_Spec ModelFile_Proofs Loss_Model Loss_Proofs.
Import ListNotations.
Local Open Scope R_scope.

Section Classifier.
Context (ps : list (list nat)) (d : dsl) (b : building).
Context (D : ModelFile_Proofs.described ps d) (HI : forall i v, nth_error (ModelFile_Model.vertices d) i = Some v -> nth i ps [] = [] -> ModelFile_Model.acceptsInput v = true) (B : ModelFile_Model.build d = Ok b).
Context (NV : ModelFile_Model.vertices d <> []) (OE : outputs_end d) (EO : ends_are_outputs d) (NS : no_sharing d) (sh : nat -> shape) (W : well_shaped d b sh) (TR : trainable d b sh).
Notation g := (network d b).
Context (o : nat) (v : vertex) (m n : nat) (C : classifier d g sh o v m n).

(** ** What arrives at the output layer does not depend on its parameters *)
Lemma upstream : forall pa pa' random given, all_fit d pa -> all_fit d pa' -> given_fit d given -> forall id u, ModelFile_Model.vertex_at d id = Ok u -> (forall id', (id' < id)%nat -> pa id' = pa' id') -> xs_of d b pa random true given id = xs_of d b pa' random true given id.
Proof.
  intros pa pa' random given F F' G id. induction id as [id IH] using lt_wf_ind. intros u Eu H. unfold xs_of. destruct (ins g id) as [|c cs] eqn:Ei; [reflexivity|]. rewrite <- Ei. apply map_ext_in. intros x Hx. apply in_ins in Hx as [Hx Ht].
  destruct (conn_range ps d b D HI B x Hx) as (R1 & R2 & _ & R3). destruct (proj1 (node_vertex ps d b D HI B (from g x))) as [w Ew]; [now apply (node_iff ps d b D HI B)|]. rewrite Ht in R3.
  destruct (flow ps d b D HI B sh W pa F random true given G _ w Ew) as (_ & _ & A & _). destruct (flow ps d b D HI B sh W pa' F' random true given G _ w Ew) as (_ & _ & A' & _).
  rewrite <- (IH _ R3 w Ew) in A' by (intros id' Hi; apply H; lia). unfold forward_at in A, A'. rewrite (H _ R3) in A. rewrite A in A'. now injection A' as ->.
Qed.
Lemma arriving_row : arriving_shapes d b sh o v = [(1, m, 1)%nat].
Proof.
  destruct C as (C1 & C2 & C3 & C4 & C5 & C6 & C7 & C8 & C9 & C10). pose proof (W o v C2) as E. unfold gives, makes in E. rewrite C3, C10 in E. destruct (arriving_shapes d b sh o v) as [|[[r c] k] [|]]; try discriminate.
  unfold entering in E. rewrite C8 in E. cbn [fst Nat.ltb Nat.leb] in E. rewrite C9 in E. unfold volume in E. rewrite !Nat.mul_1_l, !Nat.mul_1_r in E. destruct (Nat.eqb_spec c m) as [->|]; cbn [andb] in E; [|discriminate]. destruct (Nat.eqb_spec k 1) as [Ek|]; [|discriminate]. rewrite Ek.
  destruct (_ && _); [discriminate|]. injection E as ->. reflexivity.
Qed.
(** The tensor that arrives, and what is predicted from it. *)
Definition row (pa : nat -> params) (r : example) : T := hd (uniform 1 m 1 0) (xs_of d b pa (random r) true (given r) o).
Lemma arriving_at : forall pa r, all_fit d pa -> given_fit d (given r) -> xs_of d b pa (random r) true (given r) o = [row pa r] /\ shaped (row pa r) (1, m, 1)%nat /\ inputs_of d g pa (random r) (S o) (given r) o = Ok [row pa r] /\
  vertex_forward v (pa o) (random r o) true [row pa r] = Ok (val d b pa (random r) true (given r) o) /\ is_tensor (val d b pa (random r) true (given r) o) 1 n 1 (fun _ j _ => share n (row_score v m (pa o) (row pa r)) j).
Proof.
  intros pa r F G. pose proof C as (C1 & C2 & C3 & C4 & C5 & C6 & C7 & C8 & C9 & C10). destruct (flow ps d b D HI B sh W pa F (random r) true (given r) G o v C2) as (A1 & A2 & A3 & _). rewrite arriving_row in A2.
  inversion A2 as [|x ? xs ? Hx Hxs E1 E2]; subst. inversion Hxs; subst. assert (Er : row pa r = x) by (unfold row; now rewrite <- E1). rewrite Er. split; [reflexivity|]. split; [exact Hx|].
  split; [rewrite inputs_same, E1; apply A1; lia|]. unfold forward_at in A3. rewrite C2, <- E1 in A3. cbn [obind] in A3. split; [exact A3|].
  destruct (output_forward v m n C3 C4 C5 C8 C9 (pa o) (random r o) true x (F o v C2) Hx) as (y & Ey & Y). rewrite A3 in Ey. injection Ey as ->. exact Y.
Qed.
Lemma score_is : forall pa r c, all_fit d pa -> given_fit d (given r) -> score d g pa r o v c = row_score v m (pa o) (row pa r) c.
Proof.
  intros pa r c F G. destruct (arriving_at pa r F G) as (_ & _ & E & _). pose proof C as (_ & _ & _ & _ & _ & _ & _ & C8 & _). unfold score, row_score, arrives. rewrite E, C8. unfold volume. rewrite Nat.mul_1_l, Nat.mul_1_r. reflexivity.
Qed.
Lemma arrives_is : forall pa r i, all_fit d pa -> given_fit d (given r) -> arrives d g pa r o i = entry (row pa r) 0 i 0.
Proof. intros pa r i F G. destruct (arriving_at pa r F G) as (_ & _ & E & _). unfold arrives. now rewrite E. Qed.
Lemma row_same : forall pa pa' r, all_fit d pa -> all_fit d pa' -> given_fit d (given r) -> (forall id, id <> o -> pa id = pa' id) -> row pa r = row pa' r.
Proof. intros pa pa' r F F' G H. unfold row. pose proof C as (_ & C2 & _). rewrite (upstream pa pa' (random r) (given r) F F' G o v C2); [reflexivity|]. intros id Hi. apply H. lia. Qed.

(** ** Predictions and cross entropy *)
Definition output_prediction (fuel : nat) : Prop := forall pa r, all_fit d pa -> given_fit d (given r) -> snd (predict g (forward_at d pa (random r) true) fuel (given r) fresh) = Ok [val d b pa (random r) true (given r) o].
Lemma prediction : exists fuel0, forall fuel, (fuel0 <= fuel)%nat -> output_prediction fuel.
Proof.
  destruct (prediction_computes_the_values_partial g (network_well_formed ps d b D HI B) (network_outputs ps d b D HI B OE)) as [f1 P1]. exists f1. intros fuel Hf pa r F G.
  pose proof (flow_values ps d b D HI B sh W pa F (random r) true (given r) G) as Vv. destruct (P1 T (forward_at d pa (random r) true) fuel (given r) _ fresh Hf (given_count d b (given r) G) Vv ltac:(intros c _; reflexivity)) as (st1 & calls1 & E1 & _).
  pose proof C as (C1 & _). rewrite C1 in E1. rewrite E1. reflexivity.
Qed.
Lemma predicted_is : forall fuel pa r c, output_prediction fuel -> all_fit d pa -> given_fit d (given r) -> (c < n)%nat -> predicted d g fuel pa r c = share n (score d g pa r o v) c.
Proof.
  intros fuel pa r c P F G Hc. unfold predicted. rewrite (P pa r F G). destruct (arriving_at pa r F G) as (_ & _ & _ & _ & Y). rewrite (entry_is _ _ _ _ _ 0 c 0 Y) by lia. f_equal. apply functional_extensionality. intros q. now rewrite score_is.
Qed.
Lemma wanted_sum : forall r, outputs_fit g sh (truth r) -> labelled r -> SumR n (wanted r) = 1 /\ exists t, truth r = [t] /\ is_tensor t 1 n 1 (entry t) /\ forall c, wanted r c = entry t 0 c 0.
Proof.
  intros r Fo (t & Et & Es). pose proof C as (C1 & C2 & C3 & C4 & C5 & C6 & C7 & C8 & C9 & C10). unfold outputs_fit in Fo. rewrite C1, Et in Fo. inversion Fo as [|? ? ? ? H1 _]; subst. rewrite C10 in H1. pose proof (shaped_entry _ _ _ _ H1) as (T1 & T2 & T3 & T4). unfold wanted. rewrite Et. split; [now rewrite <- T2|].
  exists t. split; [reflexivity|]. split; [now apply shaped_entry|reflexivity].
Qed.
(** A path of parameters, along which only those of the output layer change, and the scores go straight. *)
Lemma entropy_slope : forall fuel r (P : R -> nat -> params) u, output_prediction fuel -> given_fit d (given r) -> outputs_fit g sh (truth r) -> labelled r -> (forall a, all_fit d (P a)) ->
  (forall a c, (c < n)%nat -> score d g (P a) r o v c = score d g (P 0) r o v c + a * u c) ->
  D0 (fun a => cross_entropy d g fuel n (P a) r) (SumR n (fun c => (predicted d g fuel (P 0) r c - wanted r c) * u c)).
Proof.
  intros fuel r P u Pr G Fo La F H. destruct (wanted_sum r Fo La) as (Ws & _). set (z := score d g (P 0) r o v) in *.
  apply (D_ext (fun a => - SumR n (fun c => wanted r c * ln (share n (fun q => z q + a * u q) c)))).
  - intros a. unfold cross_entropy. f_equal. apply SumR_ext. intros c Hc. rewrite (predicted_is fuel (P a) r c Pr (F a) G Hc). do 2 f_equal. unfold share. rewrite (H a c Hc). f_equal. apply SumR_ext. intros q Hq. now rewrite (H a q Hq).
  - eapply D_val; [apply (cross_slope n (wanted r) z u Ws)|]. apply SumR_ext. intros c Hc. now rewrite (predicted_is fuel (P 0) r c Pr (F 0) G Hc).
Qed.

(** ** What a record leaves for the update of the output layer *)
Definition left_by (pa : nat -> params) (fuel : nat) (r : example) (k : list T * list T) : Prop := kept_fit v k /\ exists dw db, k = ([dw], db) /\
  is_tensor dw m n 1 (fun i j _ => entry (row pa r) 0 i 0 * (score d g pa r o v j * (predicted d g fuel pa r j - wanted r j))) /\
  (ModelFile_Model.use_bias v = true -> exists e, db = [e] /\ is_tensor e 1 n 1 (fun _ j _ => score d g pa r o v j * (predicted d g fuel pa r j - wanted r j))).
Lemma record_leaves : exists fuel0, forall fuel pa r, (fuel0 <= fuel)%nat -> all_fit d pa -> given_fit d (given r) -> outputs_fit g sh (truth r) -> labelled r ->
  exists l, train_record d g pa (random r) Loss_Model.cce fuel (given r) (truth r) = Ok l /\ (forall id w, ModelFile_Model.vertex_at d id = Ok w -> exists k, kept_for id l = [k] /\ kept_fit w k) /\ exists k, kept_for o l = [k] /\ left_by pa fuel r k.
Proof.
  assert (WF := network_well_formed ps d b D HI B). assert (PO := network_outputs ps d b D HI B OE). assert (ND := network_ends ps d b D HI B EO). assert (NO := network_has_output ps d b D HI B EO NV).
  destruct prediction as [f1 P1]. destruct (errors_are_sent_back_partial g WF PO NO ND) as [f2 P2]. exists (S (f1 + f2 + length (ModelFile_Model.vertices d)))%nat. intros fuel pa r Hf F G Fo La. pose proof C as (C1 & C2 & C3 & C4 & C5 & C6 & C7 & C8 & C9 & C10).
  assert (Pr : output_prediction fuel) by (apply P1; lia). destruct (wanted_sum r Fo La) as (_ & t & Et & Ht & Hwt). destruct (arriving_at pa r F G) as (Ax & Sx & Ei & Ef & Y). set (y := val d b pa (random r) true (given r) o) in *.
  destruct (proj2 (Loss_Proofs.cce_elements t y 1 n 1 _ _ Ht Y)) as (e & Ee & He).
  unfold train_record. rewrite (Pr pa r F G). cbn [obind]. fold y. rewrite C1, Et. cbn [length seq omapM]. change (vec_at [t] 0) with (Ok t). change (vec_at [y] 0) with (Ok y). cbn [obind]. rewrite Ee. cbn [obind].
  assert (CH : forall id w e, ModelFile_Model.vertex_at d id = Ok w -> shaped e (sh id) -> exists es k, changes_at d g pa (random r) fuel (given r) id e = Ok (es, k) /\ vertex_backward w (pa id) (random r id) (xs_of d b pa (random r) true (given r) id) e = Ok (es, k) /\ kept_fit w k /\ (ins g id <> [] -> Forall2 (fun c x => shaped x (sh (from g c))) (ins g id) es)).
  { intros id w e0 Ev Se. unfold changes_at. rewrite Ev. cbn [obind]. destruct (flow ps d b D HI B sh W pa F (random r) true (given r) G id w Ev) as (A1 & A2 & _). rewrite inputs_same, A1.
    2:{ apply ModelFile_Proofs.vertex_at_ok in Ev. lia. }
    cbn [obind]. destruct (vertex_backward_ok w (pa id) (random r id) _ _ _ (sh id) e0 A2 (W id w Ev) (F id w Ev) (TR id w Ev) Se) as (es & dW & dB & Q1 & Q2 & Q3 & Q4). rewrite Q1. exists es, (dW, dB). split; [reflexivity|]. split; [reflexivity|]. split; [now split|].
    intros Hi. destruct (ModelFile_Model.acceptsInput w) eqn:A; [apply (head_ins ps d b D HI B id w Ev) in A; contradiction|]. specialize (Q4 eq_refl). unfold arriving_shapes in Q4. rewrite A, <- (arriving_ins d b), map_map in Q4. clear - Q4.
    revert es Q4. induction (ins g id) as [|c cs IH]; intros es H; cbn [map] in H; inversion H; subst; constructor; auto. }
  destruct (P2 T (backward_at d g pa (random r) fuel (given r)) add_errors divide_error (fun id e => shaped e (sh id)) fuel [e] {| prior_error := fun _ => None; received := [] |}) as (err & msg & calls & st' & E2 & _ & Er & (K1 & K2 & _) & Em & Eb & Eo & _ & Gd).
  { split; [intros; now apply shaped_add|]. split; [intros; now apply shaped_divide|]. intros id e0 Nid Se. apply (node_vertex ps d b D HI B) in Nid as [w Ev]. destruct (CH id w e0 Ev Se) as (es & k & Ec & _ & _ & Fc). exists es. unfold backward_at. rewrite Ec. now split. }
  { lia. } { rewrite C1. constructor; [|constructor]. rewrite C10. eexists. exact He. } { intros c _. reflexivity. }
  rewrite C1 in E2, Em. cbn [map] in Em. assert (Eerr : err o = e) by congruence.
  rewrite E2. cbn [received app] in Er. rewrite Er.
  set (K := fun id (k : list T * list T) => forall w, ModelFile_Model.vertex_at d id = Ok w -> kept_fit w k /\ exists es, vertex_backward w (pa id) (random r id) (xs_of d b pa (random r) true (given r) id) (err id) = Ok (es, k)).
  destruct (omapM_all (fun ve => do r0 <- changes_at d g pa (random r) fuel (given r) (fst ve) (snd ve); Ok (fst ve, snd r0)) (fun ve y => fst y = fst ve /\ K (fst ve) (snd y)) (map (fun v => (v, err v)) calls)) as (l & El & Fl).
  { intros ve Hve. apply in_map_iff in Hve as (id & <- & Hid). cbn [fst snd]. apply K2 in Hid. pose proof (Gd _ Hid) as Sid. apply (node_vertex ps d b D HI B) in Hid as [w Ev]. destruct (CH id w (err id) Ev Sid) as (es & k & Ec & Eb' & Kc & _).
    rewrite Ec. cbn [obind snd]. eexists. split; [reflexivity|]. split; [reflexivity|]. cbn [snd]. intros v' Ev'. rewrite Ev in Ev'. injection Ev' as <-. split; [exact Kc|]. exists es. exact Eb'. }
  rewrite El. exists l. split; [reflexivity|].
  assert (KO : forall id w, ModelFile_Model.vertex_at d id = Ok w -> exists k, kept_for id l = [k] /\ K id k).
  { intros id w Ev. apply (kept_once K calls l id K1).
    - clear - Fl. revert l Fl. induction calls as [|v calls IH]; intros l Fl; cbn [map] in Fl; inversion Fl; subst; constructor; auto.
    - apply K2, (node_vertex ps d b D HI B). eauto. }
  split; [intros id w Ev; destruct (KO id w Ev) as (k & Ek & Qk); exists k; split; [exact Ek|now apply Qk]|].
  destruct (KO o v C2) as (k & Ek & Qk). exists k. split; [exact Ek|]. destruct (Qk v C2) as (Kf & es & Eback). split; [exact Kf|]. rewrite Eerr, Ax in Eback.
  destruct (output_backward v m n C3 C4 C5 C6 C7 C8 C9 (pa o) (random r o) (row pa r) e _ (F o v C2) Sx He) as (back & dw & db & Eq & Hdw & Hdb). rewrite Eq in Eback. injection Eback as _ <-. exists dw, db. split; [reflexivity|].
  assert (Sc : forall j, (j < n)%nat -> row_score v m (pa o) (row pa r) j * (share n (row_score v m (pa o) (row pa r)) j - entry t 0 j 0) = score d g pa r o v j * (predicted d g fuel pa r j - wanted r j)).
  { intros j Hj. rewrite (predicted_is fuel pa r j Pr F G Hj), Hwt, score_is by assumption. do 3 f_equal. apply functional_extensionality. intros q. now rewrite score_is. }
  split.
  - eapply is_tensor_ext; [exact Hdw|]. intros i j l0 _ Hj _. cbv beta. now rewrite Sc.
  - intros Eb'. destruct (Hdb Eb') as (x & -> & Hx). exists x. split; [reflexivity|]. eapply is_tensor_ext; [exact Hx|]. intros i j l0 _ Hj _. cbv beta. now apply Sc.
Qed.
Lemma records_leave : exists fuel0, forall fuel pa rs, (fuel0 <= fuel)%nat -> all_fit d pa -> Forall (fun r => given_fit d (given r) /\ outputs_fit g sh (truth r) /\ labelled r) rs ->
  exists l, train_records d g Loss_Model.cce fuel pa rs = Ok l /\ (forall id w, ModelFile_Model.vertex_at d id = Ok w -> length (kept_for id l) = length rs /\ Forall (kept_fit w) (kept_for id l)) /\ Forall2 (left_by pa fuel) rs (kept_for o l).
Proof.
  destruct record_leaves as [f H]. exists f. intros fuel pa rs Hf F E. induction E as [|r rs (G & Fo & La) E IH].
  - exists []. split; [reflexivity|]. split; [intros id w _; split; [reflexivity|constructor]|constructor].
  - destruct (H fuel pa r Hf F G Fo La) as (a & Ea & Ka & k & Ek & Lk). destruct IH as (l & El & Kl & Ll). cbn [train_records]. rewrite Ea. cbn [obind]. rewrite El. cbn [obind]. exists (a ++ l). split; [reflexivity|]. split.
    + intros id w Ev. rewrite kept_app. destruct (Ka id w Ev) as (k' & -> & Fk). destruct (Kl id w Ev) as [L1 L2]. cbn [app length]. split; [now rewrite L1|now constructor].
    + rewrite kept_app, Ek. cbn [app]. now constructor.
Qed.

(** ** The update *)
Definition went_weights (pa : nat -> params) (fuel : nat) (rs : list example) (i j : nat) : R := total (fun r => entry (row pa r) 0 i 0 * (score d g pa r o v j * (predicted d g fuel pa r j - wanted r j))) rs / INR (length rs).
Definition went_biases (pa : nat -> params) (fuel : nat) (rs : list example) (j : nat) : R := total (fun r => score d g pa r o v j * (predicted d g fuel pa r j - wanted r j)) rs / INR (length rs).
Lemma batch_went : exists fuel0, forall fuel, (fuel0 <= fuel)%nat -> output_prediction fuel /\ forall pa rs rw rb, prepared d g sh pa rs ->
  exists pa', train_batch d g Loss_Model.cce fuel (gradient_descent rw rb) pa rs = Ok pa' /\ all_fit d pa' /\
    is_tensor (weights (pa' o)) m n 1 (fun i j _ => entry (weights (pa o)) i j 0 - rw * went_weights pa fuel rs i j) /\
    (ModelFile_Model.use_bias v = true -> is_tensor (biases (pa' o)) 1 n 1 (fun _ j _ => entry (biases (pa o)) 0 j 0 - rb * went_biases pa fuel rs j)).
Proof.
  assert (WF := network_well_formed ps d b D HI B). assert (PO := network_outputs ps d b D HI B OE). assert (ND := network_ends ps d b D HI B EO).
  destruct records_leave as [f1 R]. destruct prediction as [f0 P]. destruct (every_layer_is_updated_once_partial g WF PO ND (network_branches d b B NS)) as [f2 U]. exists (f0 + f1 + f2)%nat. intros fuel Hf. split; [apply P; lia|]. intros pa rs rw rb (F & Ne & E).
  destruct (R fuel pa rs ltac:(lia) F E) as (l & El & Kl & Ll). destruct (U fuel (fun _ => true) (fun _ => 1%nat) ltac:(lia) (fun v _ => le_n 1)) as (U1 & U2 & _).
  assert (Np : forall id w, ModelFile_Model.vertex_at d id = Ok w -> kept_for id l <> []) by (intros id w Ev Z; destruct (Kl id w Ev) as [L1 _]; rewrite Z in L1; destruct rs; [contradiction|discriminate]).
  assert (Ks : forall id l0 a b0 s, shaped a s -> shaped b0 s -> exists u, gradient_descent rw rb id l0 a b0 = Ok u /\ shaped u s) by (intros id l0 a b0 s Sa Sb; unfold gradient_descent, descend, subtract_view; apply shaped_pointwise; [exact Sa|now apply shaped_scale]).
  assert (VA : forall id w, ModelFile_Model.vertex_at d id = Ok w -> exists p', vertex_apply w (pa id) (gradient_descent rw rb id) (kept_for id l) = Ok p' /\ fit w p') by (intros id w Ev; exact (vertex_apply_ok w (pa id) _ _ (Ks id) (F id w Ev) (Np id w Ev) (proj2 (Kl id w Ev)))).
  destruct (update_each d (gradient_descent rw rb) (flat_map (apply_calls g fuel) (outputs g)) pa (fun id => kept_for id l) U1) as (pa' & Ep & A1 & _).
  { intros id Hid. apply U2, (node_vertex ps d b D HI B) in Hid as [w Ev]. destruct (VA id w Ev) as (p & Ep & _). eauto. }
  assert (A2 : forall id w, ModelFile_Model.vertex_at d id = Ok w -> vertex_apply w (pa id) (gradient_descent rw rb id) (kept_for id l) = Ok (pa' id)).
  { intros id w Ev. destruct (A1 id) as (w' & Ew & Aw); [apply U2, (node_vertex ps d b D HI B); eauto|]. rewrite Ev in Ew. now injection Ew as <-. }
  exists pa'. split; [unfold train_batch; rewrite El; exact Ep|]. split.
  { intros id w Ev. destruct (VA id w Ev) as (p & Ep' & Fp). rewrite (A2 id w Ev) in Ep'. now injection Ep' as <-. }
  pose proof C as (C1 & C2 & C3 & C4 & C5 & C6 & C7 & C8 & C9 & C10). destruct (vertex_descends v (pa o) o rw rb (kept_for o l) ltac:(congruence) (F o v C2) (Np o v C2) (proj2 (Kl o v C2))) as (p & Ep' & Hw & Hb). rewrite (A2 o v C2) in Ep'. injection Ep' as <-.
  specialize (Hw C3). unfold weights_shape in Hw. rewrite C8, C9 in Hw. rewrite C9 in Hb. unfold volume in Hw. rewrite !Nat.mul_1_l, !Nat.mul_1_r in Hw.
  assert (Len : length (kept_for o l) = length rs) by apply (Kl o v C2). split.
  - eapply is_tensor_ext; [exact Hw|]. intros i j k Hi Hj Hk. cbv beta. assert (k = 0)%nat as -> by lia. f_equal. f_equal. unfold mean_weights, went_weights. rewrite Len. f_equal. clear - Ll Hi Hj. induction Ll as [|r k rs ks (_ & dw & db & -> & Hd & _) Ll IH]; [reflexivity|].
    unfold total in *. cbn [fold_right fst hd]. rewrite IH. f_equal. apply (entry_is _ _ _ _ _ i j 0 Hd Hi Hj). lia.
  - intros Eb. specialize (Hb Eb). eapply is_tensor_ext; [exact Hb|]. intros i j k Hi Hj Hk. cbv beta. assert (k = 0)%nat as -> by lia. assert (i = 0)%nat as -> by lia. f_equal. f_equal. unfold mean_biases, went_biases. rewrite Len. f_equal. clear - Ll Hj Eb. induction Ll as [|r k rs ks (_ & dw & db & -> & _ & Hd) Ll IH]; [reflexivity|].
    destruct (Hd Eb) as (e & -> & He). unfold total in *. cbn [fold_right snd hd]. rewrite IH. f_equal. apply (entry_is _ _ _ _ _ 0 j 0 He); lia.
Qed.
End Classifier.
