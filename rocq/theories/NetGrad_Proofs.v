(** Proofs for C104: the derivative of the cost of a batch, and what the update makes of it. *)
From Coquelicot Require Import Coquelicot.
From Coq Require Import List Arith Bool NArith Reals Lia Lra FunctionalExtensionality.
From Verif Require Import Outcome Tensor_Model Tensor_Spec Activation_Model Layer_Model Layer_Spec Graph_Model Graph_Spec Graph_Forward Graph_Props Graph_Back_Props Graph_Walk_Props Net_Model Net_Spec NetGrad_Spec.
From Verif Require Import Algebra_Proofs Layer_Proofs Net_Proofs Net_Vertex Net_Graph Net_Flow Net_Train NetGrad_Layers NetGrad_Flow.
From Verif Require Graph_Walk_Proofs ModelFile_Model ModelFile_Spec ModelFile_Proofs ModelFile_Text Loss_Model Loss_Proofs.
Import ListNotations.
Local Open Scope R_scope.
Notation D0 f l := (is_derive (f : R -> R) (0 : R) (l : R)).
Notation fn := (nat -> nat -> nat -> R).

Lemma total_pairs : forall (q : T -> T -> R) (h : nat -> T) os ts, total (fun ty => q (fst ty) (snd ty)) (combine ts (map h os)) = total (fun ot => q (snd ot) (h (fst ot))) (combine os ts).
Proof. intros q h os. unfold total. induction os as [|o os IH]; intros [|t ts]; cbn [map combine fold_right fst snd]; try reflexivity. now rewrite IH. Qed.
Lemma total_first : forall (f : nat -> R) (os : list nat) (ts : list T), length os = length ts -> total (fun ot => f (fst ot)) (combine os ts) = total f os.
Proof. intros f os. unfold total. induction os as [|o os IH]; intros [|t ts] H; try discriminate; [reflexivity|]. cbn [combine fold_right fst]. rewrite IH by (cbn in H; congruence). reflexivity. Qed.
Lemma combined_map : forall {X} (Q : nat * T -> X -> Prop) (h : nat -> X) os ts, length os = length ts -> Forall2 Q (combine os ts) (map h os) -> forall o t, In (o, t) (combine os ts) -> Q (o, t) (h o).
Proof. intros X Q h os. induction os as [|o os IH]; intros [|t ts] L H o' t' I; try discriminate; [destruct I|]. cbn [combine map] in H. inversion H; subst. destruct I as [E|I]; [now injection E as <- <-|]. apply (IH ts); auto. Qed.
Lemma combine_nth_error : forall {X Y} (l : list X) (m : list Y) i x y, nth_error (combine l m) i = Some (x, y) -> nth_error l i = Some x /\ nth_error m i = Some y.
Proof. intros X Y l. induction l as [|a l IH]; intros [|c m] [|i] x y H; try discriminate; cbn in *; [injection H as -> ->; auto|now apply IH]. Qed.

Lemma sum_slope : forall q dq (dom : R -> Prop) (t e : T) (Y : R -> T) s, (forall a y, dom y -> is_derive (q a) y (dq a y)) -> shaped t s -> curve Y s ->
  (let '(r, c, k) := s in is_tensor e r c k (fun i j l => dq (entry t i j l) (entry (Y 0) i j l))) -> (forall i j k, in_range (Y 0) i j k -> dom (entry (Y 0) i j k)) -> D0 (fun a => sum_of q t (Y a)) (pair s e (slope Y)).
Proof.
  intros q dq dom t e Y [[r c] k] Hq Ht Hy He Hd.
  assert (Dm : forall a, rows (Y a) = r /\ cols (Y a) = c /\ chans (Y a) = k) by (intros a; destruct (curve_tensor _ _ _ _ a Hy) as (A1 & A2 & A3 & _); auto).
  rewrite (pair_is _ _ _ _ _ _ He). unfold dot. eapply D_ext; [intros a; unfold sum_of; destruct (Dm a) as (-> & -> & ->); reflexivity|].
  apply D_sum. intros l Hl. apply D_sum. intros i Hi. apply D_sum. intros j Hj. cbn [mul rops].
  apply (D_comp (q (entry t i j l)) (fun a => entry (Y a) i j l)).
  - apply Hq, Hd. unfold in_range. destruct (Dm 0) as (-> & -> & ->). auto.
  - apply (curve_slope Y (r, c, k) i j l Hy). cbn. auto.
Qed.

Section Batch.
Context (ps : list (list nat)) (d : dsl) (b : building).
Context (D : ModelFile_Proofs.described ps d) (HI : forall i v, nth_error (ModelFile_Model.vertices d) i = Some v -> nth i ps [] = [] -> ModelFile_Model.acceptsInput v = true) (B : ModelFile_Model.build d = Ok b).
Context (NV : ModelFile_Model.vertices d <> []) (OE : outputs_end d) (EO : ends_are_outputs d) (NS : no_sharing d) (sh : nat -> shape) (W : well_shaped d b sh) (TR : trainable d b sh).
Context (PL : forall id v, ModelFile_Model.vertex_at d id = Ok v -> plain v).
Notation g := (network d b).
Notation n := (length (ModelFile_Model.vertices d)).
Notation fits := (Net_Train.example_fits d b sh).

Lemma over_ext : forall (f h : nat -> vertex -> R), (forall id v, ModelFile_Model.vertex_at d id = Ok v -> f id v = h id v) -> over_vertices d f = over_vertices d h.
Proof. intros f h H. unfold over_vertices. apply total_ext. intros id _. destruct (ModelFile_Model.vertex_at d id) eqn:E; auto. Qed.
Lemma over_add : forall (f h : nat -> vertex -> R), over_vertices d (fun id v => f id v + h id v) = over_vertices d f + over_vertices d h.
Proof. intros f h. unfold over_vertices. rewrite <- total_add. apply total_ext. intros id _. destruct (ModelFile_Model.vertex_at d id); ring. Qed.
Lemma over_scale : forall a (f : nat -> vertex -> R), over_vertices d (fun id v => a * f id v) = a * over_vertices d f.
Proof. intros a f. unfold over_vertices. rewrite <- total_scale. apply total_ext. intros id _. destruct (ModelFile_Model.vertex_at d id); ring. Qed.
Lemma D_over : forall (f : nat -> vertex -> R -> R) h, (forall id v, ModelFile_Model.vertex_at d id = Ok v -> D0 (f id v) (h id v)) -> D0 (fun a => over_vertices d (fun id v => f id v a)) (over_vertices d h).
Proof.
  intros f h H. unfold over_vertices. apply (D_total (fun id a => match ModelFile_Model.vertex_at d id with Ok v => f id v a | _ => 0 end)). intros id _. destruct (ModelFile_Model.vertex_at d id) eqn:E; [now apply H|apply D_const|apply D_const].
Qed.

Lemma record_rule : exists fuel0, forall fuel L q dom pa r, (fuel0 <= fuel)%nat -> In (L, q, dom) costs -> all_fit d pa -> fits r -> record_off_kinks d g pa r -> predicts_inside d g fuel dom pa r ->
  exists l, train_record d g pa (random r) L fuel (given r) (truth r) = Ok l /\ (forall id v, ModelFile_Model.vertex_at d id = Ok v -> exists k, kept_for id l = [k] /\ kept_fit v k) /\
    forall P dw db, P 0 = pa -> path_moves d P dw db -> D0 (fun a => record_cost d g fuel q (P a) r) (over_vertices d (fun id v => total (kept_sum dw db id v) (kept_for id l)) - over_vertices d (fun id v => vertex_reg v (pa id) (dw id))).
Proof.
  assert (WF := network_well_formed ps d b D HI B). assert (PO := network_outputs ps d b D HI B OE). assert (ND := network_ends ps d b D HI B EO). assert (NO := network_has_output ps d b D HI B EO NV).
  destruct (prediction_computes_the_values_partial g WF PO) as [f1 P1]. destruct (errors_are_sent_back_partial g WF PO NO ND) as [f2 P2]. exists (S (f1 + f2 + n)). intros fuel L q dom pa r Hf HL F [G Tr] HK HP.
  destruct (loss_follows L q dom HL) as (HL' & dq & Hd1 & Hd2).
  assert (PR : forall pa', all_fit d pa' -> snd (predict g (forward_at d pa' (random r) true) fuel (given r) fresh) = Ok (map (val d b pa' (random r) true (given r)) (outputs g))).
  { intros pa' F'. pose proof (flow_values ps d b D HI B sh W pa' F' (random r) true (given r) G) as Vv. destruct (P1 T (forward_at d pa' (random r) true) fuel (given r) _ fresh ltac:(lia) (given_count d b (given r) G) Vv ltac:(intros c _; reflexivity)) as (st1 & calls1 & E1 & _). now rewrite E1. }
  assert (LT : length (outputs g) = length (truth r)) by apply (Forall2_len _ _ _ Tr).
  pose proof (flow_outputs ps d b D HI B sh W pa F (random r) true (given r) G) as FO. set (val := Net_Flow.val d b pa (random r) true (given r)) in *.
  unfold train_record. rewrite (PR pa F). cbn [obind]. fold val.
  set (Q := fun (ot : nat * T) (e : T) => let '(rw, cl, ch) := sh (fst ot) in is_tensor e rw cl ch (fun i j l => dq (entry (snd ot) i j l) (entry (val (fst ot)) i j l))).
  destruct (omapM_seq (fun i => do t <- vec_at (truth r) i; do y <- vec_at (map val (outputs g)) i; Loss_Model.derivative_of L t y) Q (combine (outputs g) (truth r)) 0) as (errors & Ee & Fe).
  { intros i [o t] Ho. cbn [Nat.add]. apply combine_nth_error in Ho as [Ho Et]. rewrite (vec_at_nth _ _ _ Et). destruct (Forall2_nth_ex _ _ _ _ _ Tr Ho) as (t' & Et' & St). rewrite Et in Et'. injection Et' as <-.
    assert (Ey : nth_error (map val (outputs g)) i = Some (val o)) by now apply map_nth_error. rewrite (vec_at_nth _ _ _ Ey). cbn [obind]. destruct (Forall2_nth_ex _ _ _ _ _ FO Ho) as (y & Ey' & Sy). rewrite Ey in Ey'. injection Ey' as <-.
    unfold Q. cbn [fst snd]. destruct (sh o) as [[rw cl] ch]. apply Hd1; now apply shaped_entry. }
  replace (length (combine (outputs g) (truth r))) with (length (outputs g)) in Ee by (rewrite combine_length, <- LT; symmetry; apply Nat.min_id). rewrite Ee. cbn [obind].
  assert (Fe' : Forall2 (fun id e => shaped e (sh id)) (outputs g) errors).
  { clear - Fe LT. revert Fe LT. generalize (truth r) errors. induction (outputs g) as [|o os IH]; intros [|t ts] es H L; try discriminate; cbn [combine] in H; inversion H as [|? ? ? ? H1 H2]; subst; constructor; [|apply (IH ts); [exact H2|cbn in L; congruence]].
    unfold Q in H1. cbn [fst snd] in H1. destruct (sh o) as [[rw cl] ch]. eexists. exact H1. }
  assert (CH : forall id v e, ModelFile_Model.vertex_at d id = Ok v -> shaped e (sh id) -> exists es k, changes_at d g pa (random r) fuel (given r) id e = Ok (es, k) /\ vertex_backward v (pa id) (random r id) (xs_of d b pa (random r) true (given r) id) e = Ok (es, k) /\ kept_fit v k /\ (ins g id <> [] -> Forall2 (fun c x => shaped x (sh (from g c))) (ins g id) es)).
  { intros id v e Ev Se. unfold changes_at. rewrite Ev. cbn [obind]. destruct (flow ps d b D HI B sh W pa F (random r) true (given r) G id v Ev) as (A1 & A2 & _). rewrite inputs_same, A1.
    2:{ apply ModelFile_Proofs.vertex_at_ok in Ev. lia. }
    cbn [obind]. destruct (vertex_backward_ok v (pa id) (random r id) _ _ _ (sh id) e A2 (W id v Ev) (F id v Ev) (TR id v Ev) Se) as (es & dW & dB & Q1 & Q2 & Q3 & Q4). rewrite Q1. exists es, (dW, dB). split; [reflexivity|]. split; [reflexivity|]. split; [now split|].
    intros Hi. destruct (ModelFile_Model.acceptsInput v) eqn:A; [apply (head_ins ps d b D HI B id v Ev) in A; contradiction|]. specialize (Q4 eq_refl). unfold arriving_shapes in Q4. rewrite A, <- (arriving_ins d b), map_map in Q4. clear - Q4.
    revert es Q4. induction (ins g id) as [|c cs IH]; intros es H; cbn [map] in H; inversion H; subst; constructor; auto. }
  destruct (P2 T (backward_at d g pa (random r) fuel (given r)) add_errors divide_error (fun id e => shaped e (sh id)) fuel errors {| prior_error := fun _ => None; received := [] |}) as (err & msg & calls & st' & E2 & _ & Er & (C1 & C2 & _) & Em & Eb & Eo & _ & Gd).
  { split; [intros; now apply shaped_add|]. split; [intros; now apply shaped_divide|]. intros id e Nid Se. apply (node_vertex ps d b D HI B) in Nid as [v Ev]. destruct (CH id v e Ev Se) as (es & k & Ec & _ & _ & Fc). exists es. unfold backward_at. rewrite Ec. now split. }
  { lia. } { exact Fe'. } { intros c _. reflexivity. }
  rewrite E2. cbn [received app] in Er. rewrite Er.
  set (K := fun id (k : list T * list T) => forall v, ModelFile_Model.vertex_at d id = Ok v -> kept_fit v k /\ exists es, vertex_backward v (pa id) (random r id) (xs_of d b pa (random r) true (given r) id) (err id) = Ok (es, k) /\ (ins g id <> [] -> es = map msg (ins g id))).
  destruct (omapM_all (fun ve => do r0 <- changes_at d g pa (random r) fuel (given r) (fst ve) (snd ve); Ok (fst ve, snd r0)) (fun ve y => fst y = fst ve /\ K (fst ve) (snd y)) (map (fun v => (v, err v)) calls)) as (l & El & Fl).
  { intros ve Hve. apply in_map_iff in Hve as (id & <- & Hid). cbn [fst snd]. apply C2 in Hid. pose proof (Gd _ Hid) as Sid. pose proof (Eb _ Hid) as Bid. apply (node_vertex ps d b D HI B) in Hid as [v Ev]. destruct (CH id v (err id) Ev Sid) as (es & k & Ec & Eb' & Kc & _).
    destruct Bid as (es' & B1 & B2). unfold backward_at in B1. rewrite Ec in B1. cbn [obind fst] in B1. injection B1 as <-.
    rewrite Ec. cbn [obind snd]. eexists. split; [reflexivity|]. split; [reflexivity|]. cbn [snd]. intros v' Ev'. rewrite Ev in Ev'. injection Ev' as <-. split; [exact Kc|]. exists es. split; [exact Eb'|exact B2]. }
  rewrite El. exists l. split; [reflexivity|].
  assert (KO : forall id v, ModelFile_Model.vertex_at d id = Ok v -> exists k, kept_for id l = [k] /\ K id k).
  { intros id v Ev. apply (kept_once K calls l id C1).
    - clear - Fl. revert l Fl. induction calls as [|v calls IH]; intros l Fl; cbn [map] in Fl; inversion Fl; subst; constructor; auto.
    - apply C2, (node_vertex ps d b D HI B). eauto. }
  split; [intros id v Ev; destruct (KO id v Ev) as (k & Ek & Qk); exists k; split; [exact Ek|now apply Qk]|].
  intros P dw db P0 M. subst pa. set (k := fun id => hd ([], []) (kept_for id l)).
  set (es := fun id => match ModelFile_Model.vertex_at d id with Ok v => match vertex_backward v (P 0 id) (random r id) (xs_of d b (P 0) (random r) true (given r) id) (err id) with Ok x => fst x | _ => [] end | _ => [] end).
  assert (BS := back_sum ps d b D HI B OE EO NS sh W TR PL P dw db r err msg es k M G HK).
  assert (BS' : total (fun o => pair (sh o) (err o) (slope (V d b P r o))) (outputs g) + over_vertices d (fun id v => vertex_reg v (P 0 id) (dw id)) = over_vertices d (fun id v => kept_sum dw db id v (k id))).
  { apply BS; [|exact Eo]. intros id v Ev. split; [apply Gd, (node_vertex ps d b D HI B); eauto|]. destruct (KO id v Ev) as (k0 & Ek & Qk). destruct (Qk v Ev) as (_ & es0 & Q1 & Q2). unfold es, k. rewrite Ev, Q1, Ek. cbn [fst hd]. auto. }
  clear BS. assert (OK : over_vertices d (fun id v => total (kept_sum dw db id v) (kept_for id l)) = over_vertices d (fun id v => kept_sum dw db id v (k id))).
  { apply over_ext. intros id v Ev. destruct (KO id v Ev) as (k0 & Ek & _). unfold k. rewrite Ek. unfold total. cbn [fold_right hd]. ring. }
  rewrite OK, <- BS'. apply (D_ext (fun a => total (fun ot => sum_of q (snd ot) (V d b P r (fst ot) a)) (combine (outputs g) (truth r)))).
  - intros a. unfold record_cost. rewrite (PR (P a)); [|apply (path_fits d PL P dw db a M)]. symmetry. apply (total_pairs (sum_of q) (fun o => V d b P r o a)).
  - match goal with |- is_derive _ _ ?x => replace x with (total (fun o => pair (sh o) (err o) (slope (V d b P r o))) (outputs g)) by ring end. rewrite <- (total_first _ (outputs g) (truth r) LT).
    apply (D_total (fun ot a => sum_of q (snd ot) (V d b P r (fst ot) a))). intros [o t] Iot. cbn [fst snd]. assert (Io : In o (outputs g)) by (eapply in_combine_l; exact Iot).
    destruct (proj1 (output_iff ps d b D HI B o) Io) as (v & Ev & _). destruct (value_rule ps d b D HI B sh W TR PL P dw db M r G HK o v Ev) as (Cv & _).
    apply (sum_slope q dq dom t (err o) (V d b P r o) (sh o) Hd2).
    + clear - Iot Tr. induction Tr as [|x y os ts H Tr IH]; [destruct Iot|]. cbn [combine] in Iot. destruct Iot as [E|Iot]; [injection E as <- <-; exact H|now apply IH].
    + exact Cv.
    + rewrite <- Em in Fe. exact (combined_map Q err (outputs g) (truth r) LT Fe o t Iot).
    + intros i j l0 Hr. apply (HP (map val (outputs g)) (val o) (PR _ F)); [now apply in_map|exact Hr].
Qed.

Lemma records_rule : exists fuel0, forall fuel L q dom pa rs, (fuel0 <= fuel)%nat -> In (L, q, dom) costs -> all_fit d pa -> Forall fits rs -> Forall (record_off_kinks d g pa) rs -> Forall (predicts_inside d g fuel dom pa) rs ->
  exists l, train_records d g L fuel pa rs = Ok l /\ (forall id v, ModelFile_Model.vertex_at d id = Ok v -> length (kept_for id l) = length rs /\ Forall (kept_fit v) (kept_for id l)) /\
    forall P dw db, P 0 = pa -> path_moves d P dw db -> D0 (fun a => total (record_cost d g fuel q (P a)) rs) (over_vertices d (fun id v => total (kept_sum dw db id v) (kept_for id l)) - INR (length rs) * over_vertices d (fun id v => vertex_reg v (pa id) (dw id))).
Proof.
  destruct record_rule as [fuel0 H]. exists fuel0. intros fuel L q dom pa rs Hf HL F E HK HP. induction E as [|r rs Er E IH].
  - exists []. split; [reflexivity|]. split; [intros id v _; split; [reflexivity|constructor]|]. intros P dw db _ _. unfold total at 1. cbn [fold_right]. apply (D_val _ 0); [apply D_const|]. rewrite (over_ext _ (fun _ _ => 0)) by reflexivity.
    assert (Z : over_vertices d (fun _ _ => 0) = 0) by (unfold over_vertices; apply total_zero; intros id _; now destruct (ModelFile_Model.vertex_at d id)). rewrite Z. cbn. ring.
  - inversion HK as [|? ? K1 K2]; subst. inversion HP as [|? ? Q1 Q2]; subst. destruct (H fuel L q dom pa r Hf HL F Er K1 Q1) as (a & Ea & Ka & Da). destruct (IH K2 Q2) as (l & El & Kl & Dl). cbn [train_records]. rewrite Ea. cbn [obind]. rewrite El. cbn [obind].
    exists (a ++ l). split; [reflexivity|]. split.
    + intros id v Ev. rewrite kept_app. destruct (Ka id v Ev) as (k & -> & Fk). destruct (Kl id v Ev) as [L1 L2]. cbn [app length]. split; [now rewrite L1|now constructor].
    + intros P dw db P0 M. eapply D_val; [apply (D_add (fun a => record_cost d g fuel q (P a) r) (fun a => total (record_cost d g fuel q (P a)) rs) _ _ (Da P dw db P0 M) (Dl P dw db P0 M))|].
      rewrite (over_ext (fun id v => total (kept_sum dw db id v) (kept_for id (a ++ l))) (fun id v => total (kept_sum dw db id v) (kept_for id a) + total (kept_sum dw db id v) (kept_for id l))) by (intros; now rewrite kept_app, total_app).
      rewrite over_add. change (length (r :: rs)) with (S (length rs)). rewrite S_INR. ring.
Qed.

(** The penalty. *)
Lemma D_penalty : forall P dw db, path_moves d P dw db -> D0 (fun a => penalty d (P a)) (over_vertices d (fun id v => vertex_reg v (P 0 id) (dw id))).
Proof.
  intros P dw db M. unfold penalty. apply (D_over (fun id v a => if is_full v then configured_strength v / 2 * over (weights_shape v) (entry (weights (P a id))) (entry (weights (P a id))) else 0)). intros id v Ev. unfold vertex_reg. replace (strength_of (strength v)) with (configured_strength v) by (unfold configured_strength, strength; now destruct (ModelFile_Model.use_l2_regularization v)). destruct (is_full v) eqn:Ef; [|apply D_const].
  assert (Et : ModelFile_Model.node_type v = ModelFile_Model.full) by (unfold is_full in Ef; destruct (ModelFile_Model.node_type v); (reflexivity || discriminate)). destruct (proj1 (M id v Ev) Et) as [C S0]. unfold weights_shape in *. set (I := volume (input_shape v)) in *. set (O := volume (output_shape v)) in *.
  eapply D_val; [apply D_scale|]; cycle 1.
  - instantiate (1 := 2 * over (I, O, 1%nat) (entry (weights (P 0 id))) (dw id)). field.
  - unfold over. unfold dot. assert (Q : D0 (fun a => SumR 1 (fun k => SumR I (fun i => SumR O (fun j => entry (weights (P a id)) i j k * entry (weights (P a id)) i j k)))) (SumR 1 (fun k => SumR I (fun i => SumR O (fun j => 2 * (entry (weights (P 0 id)) i j k * dw id i j k)))))).
    { apply D_sum. intros k Hk. apply D_sum. intros i Hi. apply D_sum. intros j Hj. assert (Hin : inside (I, O, 1%nat) i j k) by (cbn; auto). pose proof (curve_slope _ _ i j k C Hin) as Dw. rewrite (S0 i j k Hin) in Dw.
      eapply D_val; [apply (D_mul _ _ _ _ Dw Dw)|]. ring. }
    eapply D_val; [exact Q|]. rewrite <- SumR_mul_l. apply SumR_ext. intros k _. rewrite <- SumR_mul_l. apply SumR_ext. intros i _. now rewrite <- SumR_mul_l.
Qed.

(** ** The update of one vertex *)
Definition mean_weights (p : params) (pending : list (list T * list T)) : fn := fun i j k => total (fun x => entry (hd (weights p) (fst x)) i j k) pending / INR (length pending).
Definition mean_biases (p : params) (pending : list (list T * list T)) : fn := fun i j k => total (fun x => entry (hd (biases p) (snd x)) i j k) pending / INR (length pending).
Lemma is_full_iff : forall v, is_full v = true <-> ModelFile_Model.node_type v = ModelFile_Model.full.
Proof. intros v. unfold is_full. destruct (ModelFile_Model.node_type v); cbn; split; congruence. Qed.
Lemma concat_single : forall (f : list T * list T -> list T) (x0 : T) l s, Forall (fun k => Forall2 shaped (f k) [s]) l -> concat (map f l) = map fst (map (fun k => (hd x0 (f k), entry (hd x0 (f k)))) l) /\
  let '(r, c, k) := s in Forall (fun p => is_tensor (fst p) r c k (snd p)) (map (fun k => (hd x0 (f k), entry (hd x0 (f k)))) l).
Proof.
  intros f x0 l [[r c] k] H. rewrite map_map. cbn [fst]. split.
  - induction H as [|x l Hx H IH]; [reflexivity|]. cbn [map concat]. rewrite IH. inversion Hx as [|e ? es ? H1 H2]; subst. inversion H2; subst. reflexivity.
  - induction H as [|x l Hx H IH]; [constructor|]. cbn [map]. constructor; [|exact IH]. cbn [fst snd]. inversion Hx as [|e ? es ? H1 H2]; subst. cbn [hd]. now apply shaped_entry.
Qed.
Lemma vertex_descends : forall v p id rw rb pending, ModelFile_Model.node_type v <> ModelFile_Model.convolution2dValid -> fit v p -> pending <> [] -> Forall (kept_fit v) pending ->
  exists p', vertex_apply v p (gradient_descent rw rb id) pending = Ok p' /\
    (ModelFile_Model.node_type v = ModelFile_Model.full -> let '(r, c, k) := weights_shape v in is_tensor (weights p') r c k (fun i j l => entry (weights p) i j l - rw * mean_weights p pending i j l)) /\
    (ModelFile_Model.use_bias v = true -> let '(r, c, k) := output_shape v in is_tensor (biases p') r c k (fun i j l => entry (biases p) i j l - rb * mean_biases p pending i j l)).
Proof.
  intros v p id rw rb pending N2 (F1 & _ & F3) Ne K. unfold vertex_apply, gradient_descent.
  assert (HB : exists u, (if ModelFile_Model.use_bias v then do b0 <- bias_apply (descend rb) {| bias_values := biases p; bias_errors := concat (map snd pending) |}; Ok (bias_values b0) else Ok (biases p)) = Ok u /\
    (ModelFile_Model.use_bias v = true -> let '(r, c, k) := output_shape v in is_tensor u r c k (fun i j l => entry (biases p) i j l - rb * mean_biases p pending i j l))).
  { destruct (ModelFile_Model.use_bias v) eqn:Eb; [|exists (biases p); split; [reflexivity|discriminate]]. specialize (F3 eq_refl).
    assert (K' : Forall (fun k => Forall2 shaped (snd k) [output_shape v]) pending) by (eapply Forall_impl; [|exact K]; intros k [_ H]; unfold kept_bias in H; now rewrite Eb in H).
    destruct (concat_single snd (biases p) pending _ K') as [C1 C2]. destruct (output_shape v) as [[r c] k] eqn:Es.
    destruct (bias_apply_ok {| bias_values := biases p; bias_errors := concat (map snd pending) |} r c k rb (entry (biases p)) _ (shaped_entry _ _ _ _ F3) C1) as (u & Eu & Hu); [destruct pending; [contradiction|discriminate]|exact C2|].
    rewrite Eu. cbn [obind bias_values]. exists u. split; [reflexivity|]. intros _. eapply is_tensor_ext; [exact Hu|]. intros i j l _ _ _. unfold mean_biases. rewrite total_map, map_length. reflexivity. }
  destruct HB as (u & -> & HB). cbn [obind]. destruct (ModelFile_Model.node_type v) eqn:Et; try congruence.
  1: { specialize (F1 eq_refl). assert (K' : Forall (fun k => Forall2 shaped (fst k) [weights_shape v]) pending) by (eapply Forall_impl; [|exact K]; intros k [H _]; unfold kept_weights in H; now rewrite Et in H).
    destruct (concat_single fst (weights p) pending _ K') as [C1 C2]. unfold weights_shape in *.
    destruct (fc_apply_ok {| fc_weights := weights p; lastInputs := []; weights_errors := concat (map fst pending); l2 := strength v |} _ _ _ rw (entry (weights p)) _ (shaped_entry _ _ _ _ F1) C1) as (w & Ew & Hw); [destruct pending; [contradiction|discriminate]|exact C2|].
    cbn [weights_errors lastInputs l2] in Ew. rewrite Ew. cbn [obind fc_weights]. eexists. split; [reflexivity|]. cbn [weights biases]. split; [|exact HB]. intros _. eapply is_tensor_ext; [exact Hw|]. intros i j l _ _ _. unfold mean_weights. rewrite total_map, map_length. reflexivity. }
  all: eexists; split; [reflexivity|]; cbn [weights biases]; split; [discriminate|exact HB].
Qed.
Lemma dot_mean : forall (r c k : nat) (l : list (list T * list T)) (f : list T * list T -> fn) (N : R) (u : fn), dot r c k (fun i j m => total (fun x => f x i j m) l / N) u = total (fun x => dot r c k (f x) u) l / N.
Proof.
  intros r c k l f N u. unfold Rdiv. rewrite (Rmult_comm _ (/ N)). rewrite <- total_scale. induction l as [|x l IH].
  - unfold total at 2. cbn [fold_right]. unfold dot. apply (Sum_zero rops Ropp rring). intros i _. apply (Sum_zero rops Ropp rring). intros j _. apply (Sum_zero rops Ropp rring). intros m _. unfold total. cbn. ring.
  - change (total ?h (x :: l)) with (h x + total h l). cbv beta. rewrite <- IH, <- dot_scale_l, <- dot_add_l. apply dot_ext. intros i j m _ _ _. split; [|reflexivity].
    change (total (fun x0 => f x0 i j m) (x :: l)) with (f x i j m + total (fun x0 => f x0 i j m) l). ring.
Qed.
Lemma kept_mean : forall v p pending dw db id, plain v -> pending <> [] -> Forall (kept_fit v) pending ->
  total (kept_sum dw db id v) pending / INR (length pending) = (if is_full v then over (weights_shape v) (mean_weights p pending) (dw id) else 0) + (if ModelFile_Model.use_bias v then over (output_shape v) (mean_biases p pending) (db id) else 0).
Proof.
  intros v p pending dw db id (N1 & N2 & _) Ne K. unfold kept_sum. rewrite total_add. unfold Rdiv. rewrite Rmult_plus_distr_r. f_equal.
  - destruct (is_full v) eqn:Ef.
    + apply is_full_iff in Ef. unfold weights_shape, over, mean_weights. rewrite dot_mean. unfold Rdiv. f_equal. apply total_ext. intros [xw xb] Hx. rewrite Forall_forall in K. cbn [fst snd]. destruct (K _ Hx) as [H _]. cbn [fst snd] in H. unfold kept_weights in *. rewrite Ef in *. inversion H as [|e s es ss H1 H2]; subst. inversion H2; subst. cbn [hd]. unfold pair_all, total, pair, over. cbn [combine fold_right fst snd]. apply Rplus_0_r.
    + rewrite total_zero; [ring|]. intros x _. unfold kept_weights. destruct (ModelFile_Model.node_type v) eqn:Et; try congruence; try reflexivity. apply is_full_iff in Et. congruence.
  - destruct (ModelFile_Model.use_bias v) eqn:Ef.
    + unfold over, mean_biases. destruct (output_shape v) as [[r c] k] eqn:Es. rewrite dot_mean. unfold Rdiv. f_equal. apply total_ext. intros [xw xb] Hx. rewrite Forall_forall in K. cbn [fst snd]. destruct (K _ Hx) as [_ H]. cbn [fst snd] in H. unfold kept_bias in *. rewrite Ef in *. inversion H as [|e s es ss H1 H2]; subst. inversion H2; subst. cbn [hd]. rewrite Es. unfold pair_all, total, pair, over. cbn [combine fold_right fst snd]. apply Rplus_0_r.
    + rewrite total_zero; [ring|]. intros x _. unfold kept_bias. rewrite Ef. reflexivity.
Qed.

(** ** The update of the network *)
Lemma update_each : forall change calls pa pending, NoDup calls -> (forall id, In id calls -> exists v p, ModelFile_Model.vertex_at d id = Ok v /\ vertex_apply v (pa id) (change id) (pending id) = Ok p) ->
  exists pa', update_all d change calls pa pending = Ok pa' /\ (forall id, In id calls -> exists v, ModelFile_Model.vertex_at d id = Ok v /\ vertex_apply v (pa id) (change id) (pending id) = Ok (pa' id)) /\ forall id, ~ In id calls -> pa' id = pa id.
Proof.
  intros change calls. induction calls as [|id calls IH]; intros pa pending N H; [exists pa; split; [reflexivity|]; split; [intros ? []|reflexivity]|]. apply NoDup_cons_iff in N as [N1 N2]. cbn [update_all]. destruct (H id (or_introl eq_refl)) as (v & p & Ev & Ep). rewrite Ev. cbn [obind]. rewrite Ep. cbn [obind].
  assert (Same : forall i, In i calls -> set_at pa id p i = pa i /\ set_at pending id [] i = pending i) by (intros i Hi; unfold set_at; destruct (Nat.eqb_spec i id) as [->|]; [contradiction|auto]).
  destruct (IH (set_at pa id p) (set_at pending id []) N2) as (pa' & E' & A1 & A2).
  { intros i Hi. destruct (Same i Hi) as [-> ->]. apply H. now right. }
  exists pa'. split; [exact E'|]. split.
  - intros i [<-|Hi].
    + exists v. split; [exact Ev|]. rewrite A2 by exact N1. unfold set_at. rewrite Nat.eqb_refl. exact Ep.
    + destruct (A1 i Hi) as (u & Eu & Au). destruct (Same i Hi) as [S1 S2]. rewrite S1, S2 in Au. eauto.
  - intros i Hi. rewrite A2 by (intros X; apply Hi; now right). unfold set_at. destruct (Nat.eqb_spec i id) as [->|]; [|reflexivity]. contradict Hi. now left.
Qed.

(** The gradient of the cost of a batch, and the update. *)
Definition gradient_sum (gw gb dw db : nat -> fn) : R := over_vertices d (fun id v => (if is_full v then over (weights_shape v) (gw id) (dw id) else 0) + (if ModelFile_Model.use_bias v then over (output_shape v) (gb id) (db id) else 0)).
Definition went (pa pa' : nat -> params) (rw rb : R) (gw gb : nat -> fn) : Prop := forall id v, ModelFile_Model.vertex_at d id = Ok v ->
  (ModelFile_Model.node_type v = ModelFile_Model.full -> let '(r, c, k) := weights_shape v in is_tensor (weights (pa' id)) r c k (fun i j l => entry (weights (pa id)) i j l - rw * gw id i j l)) /\
  (ModelFile_Model.use_bias v = true -> let '(r, c, k) := output_shape v in is_tensor (biases (pa' id)) r c k (fun i j l => entry (biases (pa id)) i j l - rb * gb id i j l)).
Lemma batch_gradient : exists fuel0, forall fuel L q dom pa rs, (fuel0 <= fuel)%nat -> In (L, q, dom) costs -> all_fit d pa -> rs <> [] -> Forall fits rs -> Forall (record_off_kinks d g pa) rs -> Forall (predicts_inside d g fuel dom pa) rs ->
  exists gw gb : nat -> fn,
    (forall P dw db, P 0 = pa -> path_moves d P dw db -> D0 (fun a => batch_cost d g fuel q rs (P a)) (gradient_sum gw gb dw db)) /\
    forall rw rb, exists pa', train_batch d g L fuel (gradient_descent rw rb) pa rs = Ok pa' /\ went pa pa' rw rb gw gb.
Proof.
  assert (WF := network_well_formed ps d b D HI B). assert (PO := network_outputs ps d b D HI B OE). assert (ND := network_ends ps d b D HI B EO).
  destruct records_rule as [f1 R]. destruct (every_layer_is_updated_once_partial g WF PO ND (network_branches d b B NS)) as [f2 U]. exists (f1 + f2)%nat. intros fuel L q dom pa rs Hf HL F Ne E HK HP.
  destruct (R fuel L q dom pa rs ltac:(lia) HL F E HK HP) as (l & El & Kl & Dl). destruct (U fuel (fun _ => true) (fun _ => 1%nat) ltac:(lia) (fun v _ => le_n 1)) as (U1 & U2 & _).
  assert (Np : forall id v, ModelFile_Model.vertex_at d id = Ok v -> kept_for id l <> []) by (intros id v Ev Z; destruct (Kl id v Ev) as [L1 _]; rewrite Z in L1; destruct rs; [contradiction|discriminate]).
  assert (Nr : INR (length rs) <> 0) by (apply not_0_INR; destruct rs; [contradiction|discriminate]).
  exists (fun id => mean_weights (pa id) (kept_for id l)), (fun id => mean_biases (pa id) (kept_for id l)). split.
  - intros P dw db P0 M. unfold batch_cost, Rdiv. eapply D_val; [apply (D_add (fun a => total (record_cost d g fuel q (P a)) rs * / INR (length rs)) (fun a => penalty d (P a)))|].
    + apply (D_ext (fun a => / INR (length rs) * total (record_cost d g fuel q (P a)) rs)); [intros; apply Rmult_comm|]. apply D_scale. apply (Dl P dw db P0 M).
    + apply (D_penalty P dw db M).
    + rewrite P0. unfold gradient_sum. rewrite (over_ext (fun id v => (if is_full v then over (weights_shape v) (mean_weights (pa id) (kept_for id l)) (dw id) else 0) + (if ModelFile_Model.use_bias v then over (output_shape v) (mean_biases (pa id) (kept_for id l)) (db id) else 0)) (fun id v => / INR (length rs) * total (kept_sum dw db id v) (kept_for id l))).
      * rewrite over_scale. field. exact Nr.
      * intros id v Ev. destruct (Kl id v Ev) as [L1 L2]. rewrite <- (kept_mean v (pa id) _ dw db id (PL id v Ev) (Np id v Ev) L2), L1. unfold Rdiv. ring.
  - intros rw rb. unfold train_batch. rewrite El. cbn [obind]. assert (VD : forall id v, ModelFile_Model.vertex_at d id = Ok v -> _) by (intros id v Ev; exact (vertex_descends v (pa id) id rw rb (kept_for id l) (proj1 (proj2 (PL id v Ev))) (F id v Ev) (Np id v Ev) (proj2 (Kl id v Ev)))).
    destruct (update_each (gradient_descent rw rb) (flat_map (apply_calls g fuel) (outputs g)) pa (fun id => kept_for id l) U1) as (pa' & Ep & A1 & _).
    { intros id Hid. apply U2, (node_vertex ps d b D HI B) in Hid as [v Ev]. destruct (VD id v Ev) as (p & Ep & _). eauto. }
    exists pa'. split; [exact Ep|]. intros id v Ev. destruct (A1 id) as (v' & Ev' & Av); [apply U2, (node_vertex ps d b D HI B); eauto|]. rewrite Ev in Ev'. injection Ev' as <-. destruct (VD id v Ev) as (p & Ep' & Q). rewrite Ep' in Av. injection Av as <-. exact Q.
Qed.
End Batch.
