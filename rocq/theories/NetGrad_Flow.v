(** Proofs for C104: the derivative of the cost of one record. *)
From Coquelicot Require Import Coquelicot.
From Coq Require Import List Arith Bool NArith Reals Lia Lra FunctionalExtensionality.
From Verif Require Import Outcome Tensor_Model Tensor_Spec Activation_Model Layer_Model Layer_Spec Graph_Model Graph_Spec Graph_Forward Graph_Props Graph_Back_Props Net_Model Net_Spec NetGrad_Spec.
From Verif Require Import Algebra_Proofs Layer_Proofs Net_Proofs Net_Vertex Net_Graph Net_Flow Net_Train NetGrad_Layers.
From Verif Require Graph_Walk_Proofs ModelFile_Model ModelFile_Spec ModelFile_Proofs ModelFile_Text Loss_Model Loss_Proofs.
Import ListNotations.
Local Open Scope R_scope.

(** ** Losses *)
Lemma loss_follows : forall L q dom, In (L, q, dom) costs -> In L losses /\ exists dq,
  (forall t y r c k f h, is_tensor t r c k f -> is_tensor y r c k h -> exists e, Loss_Model.derivative_of L t y = Ok e /\ is_tensor e r c k (fun i j l => dq (f i j l) (h i j l))) /\
  forall t y : R, dom y -> is_derive (q t) y (dq t y).
Proof.
  intros L q dom H. unfold costs in H. cbn [In] in H. destruct H as [H|[H|[H|[H|[H|[]]]]]]; injection H as <- <- <-; (split; [unfold losses; cbn [In]; tauto|]).
  - exists (fun t y => 2 * (y - t)). split; [intros; now apply Loss_Proofs.mse_elements|]. intros t y _. auto_derive; [exact I|]. ring.
  - exists (fun t y => y - t). split; [intros; now apply Loss_Proofs.smae_elements|]. intros t y _. auto_derive; [exact I|]. field.
  - exists (fun t y => y - t). split; [intros; now apply Loss_Proofs.cce_elements|]. intros t y _. auto_derive; [exact I|]. field.
  - exists (fun t y => - (t / Loss_Proofs.guard y - (1 - t) / Loss_Proofs.guard (1 - y))). split; [intros; now apply Loss_Proofs.bce_elements|]. intros t y [H1 H2]. unfold Loss_Proofs.guard. destruct (Req_EM_T y 0); [lra|]. destruct (Req_EM_T (1 - y) 0); [lra|].
    auto_derive; [repeat split; lra|]. field. split; lra.
  - exists (fun t y => - (y - t)). split; [intros; now apply Loss_Proofs.mae_elements|]. intros t y _. auto_derive; [exact I|]. field.
Qed.

(** ** Sums over connections *)
Lemma total_ext : forall {X} (f h : X -> R) l, (forall x, In x l -> f x = h x) -> total f l = total h l.
Proof. intros X f h l H. unfold total. induction l as [|x l IH]; [reflexivity|]. cbn [fold_right]. rewrite (H x (or_introl eq_refl)), IH; [reflexivity|]. intros; apply H; now right. Qed.
Lemma total_add : forall {X} (f h : X -> R) l, total (fun x => f x + h x) l = total f l + total h l.
Proof. intros X f h l. unfold total. induction l as [|x l IH]; cbn [fold_right]; [ring|]. rewrite IH. ring. Qed.
Lemma total_scale : forall {X} a (f : X -> R) l, total (fun x => a * f x) l = a * total f l.
Proof. intros X a f l. unfold total. induction l as [|x l IH]; cbn [fold_right]; [ring|]. rewrite IH. ring. Qed.
Lemma total_zero : forall {X} (f : X -> R) l, (forall x, In x l -> f x = 0) -> total f l = 0.
Proof. intros X f l H. unfold total. induction l as [|x l IH]; [reflexivity|]. cbn [fold_right]. rewrite (H x (or_introl eq_refl)), IH; [ring|]. intros; apply H; now right. Qed.
Lemma total_map : forall {X Y} (m : X -> Y) (f : Y -> R) l, total f (map m l) = total (fun x => f (m x)) l.
Proof. intros X Y m f l. unfold total. induction l as [|x l IH]; [reflexivity|]. cbn [map fold_right]. now rewrite IH. Qed.
Lemma total_swap : forall {X Y} (f : X -> Y -> R) l m, total (fun x => total (f x) m) l = total (fun y => total (fun x => f x y) l) m.
Proof.
  intros X Y f l m. induction l as [|x l IH]; [symmetry; apply total_zero; reflexivity|]. change (total (f x) m + total (fun x => total (f x) m) l = total (fun y => f x y + total (fun x => f x y) l) m). rewrite total_add, IH. reflexivity.
Qed.
Lemma total_pick : forall (ids : list nat) i (a : R), NoDup ids -> In i ids -> total (fun id => if Nat.eqb i id then a else 0) ids = a.
Proof.
  intros ids i a. unfold total. induction ids as [|x ids IH]; intros N H; [destruct H|]. apply NoDup_cons_iff in N as [N1 N2]. cbn [fold_right]. destruct (Nat.eqb_spec i x) as [->|Ne].
  - change (fold_right _ 0 ids) with (total (fun id => if Nat.eqb x id then a else 0) ids). rewrite total_zero; [ring|]. intros y Hy. destruct (Nat.eqb_spec x y) as [->|]; [contradiction|reflexivity].
  - rewrite IH; [ring|exact N2|]. destruct H as [->|H]; [contradiction|exact H].
Qed.
Lemma total_group : forall (f : nat -> nat) (h : nat -> R) ids cs, NoDup ids -> (forall c, In c cs -> In (f c) ids) -> total (fun id => total h (filter (fun c => Nat.eqb (f c) id) cs)) ids = total h cs.
Proof.
  intros f h ids cs N. induction cs as [|c cs IH]; intros H; [apply total_zero; reflexivity|].
  transitivity (total (fun id => (if Nat.eqb (f c) id then h c else 0) + total h (filter (fun c => Nat.eqb (f c) id) cs)) ids).
  - apply total_ext. intros id _. cbn [filter]. destruct (Nat.eqb (f c) id); [reflexivity|ring].
  - rewrite total_add, IH by (intros; apply H; now right). rewrite total_pick; [reflexivity|exact N|apply H; now left].
Qed.
Lemma total_subset : forall (f : nat -> R) ids os, NoDup ids -> NoDup os -> (forall o, In o os -> In o ids) -> total (fun id => if existsb (Nat.eqb id) os then f id else 0) ids = total f os.
Proof.
  intros f ids os N No. induction No as [|o os Ho No IH]; intros H; [apply total_zero; reflexivity|].
  transitivity (total (fun id => (if Nat.eqb o id then f o else 0) + (if existsb (Nat.eqb id) os then f id else 0)) ids).
  - apply total_ext. intros id _. cbn [existsb]. destruct (Nat.eqb_spec o id) as [->|Ne].
    + rewrite Nat.eqb_refl. cbn [orb]. destruct (existsb (Nat.eqb id) os) eqn:E; [|ring]. exfalso. apply Ho. apply existsb_exists in E as (x & Hx & ->%Nat.eqb_eq). exact Hx.
    + destruct (Nat.eqb_spec id o); [congruence|]. cbn [orb]. ring.
  - rewrite total_add, total_pick, IH; [reflexivity|intros; apply H; now right|exact N|apply H; now left].
Qed.

(** ** One vertex *)
Definition vertex_moves (v : vertex) (P : R -> params) (dw db : fn) : Prop :=
  (ModelFile_Model.node_type v = ModelFile_Model.full -> weights_move v P dw) /\ (ModelFile_Model.use_bias v = true -> biases_move v P db).
Definition vertex_reg (v : vertex) (p : params) (dw : fn) : R := if is_full v then strength_of (strength v) * over (weights_shape v) (entry (weights p)) dw else 0.
Lemma vertex_layers : forall v P dw db, plain v -> vertex_moves v P dw db -> Forall (layer_moves v P dw db) (layers_of v) /\ Forall (layer_plain v) (layers_of v) /\ total (reg v P dw) (layers_of v) = vertex_reg v (P 0) dw.
Proof.
  intros v P dw db (N1 & N2 & N3 & _ & N5) [M1 M2]. unfold layers_of, vertex_reg, is_full. rewrite N3. split; [|split].
  - apply Forall_app. split; [|apply Forall_app; split].
    + destruct (ModelFile_Model.node_type v); try congruence; try (destruct (1 <? _)%nat); cbn [app]; repeat (constructor; [cbn [layer_moves]; auto|]); constructor.
    + destruct (ModelFile_Model.use_bias v); [constructor; [exact (M2 eq_refl)|constructor]|constructor].
    + cbn [app]. destruct (ModelFile_Model.weighted _); [constructor; [exact I|constructor]|constructor].
  - apply Forall_app. split; [|apply Forall_app; split].
    + destruct (ModelFile_Model.node_type v); try congruence; try (destruct (1 <? _)%nat); cbn [app]; repeat (constructor; [exact I|]); constructor.
    + destruct (ModelFile_Model.use_bias v); [constructor; [exact I|constructor]|constructor].
    + cbn [app]. destruct (ModelFile_Model.node_type v) eqn:Et; cbn [ModelFile_Model.weighted ModelFile_Model.layer_eqb orb]; try congruence; (constructor; [|constructor]) || constructor. exact (N5 eq_refl).
  - rewrite !total_app. assert (Z : total (reg v P dw) (if ModelFile_Model.use_bias v then [Bias] else []) = 0) by (destruct (ModelFile_Model.use_bias v); unfold total; cbn; ring). rewrite Z.
    assert (Z' : total (reg v P dw) (if ModelFile_Model.weighted (ModelFile_Model.node_type v) then [Activate] else []) = 0) by (destruct (ModelFile_Model.weighted _); unfold total; cbn; ring). rewrite Z'.
    destruct (ModelFile_Model.node_type v); try congruence; try (destruct (1 <? _)%nat); unfold total; cbn [app fold_right reg ModelFile_Model.layer_eqb]; ring.
Qed.
Lemma vertex_rule : forall v P random dw db xs ss s head, plain v -> vertex_moves v P dw db -> Forall2 curve xs ss -> gives v ss = Some s -> sends_back v head ss -> off_kinks v (P 0) random (start xs 0) ->
  exists Y, (forall a, vertex_forward v (P a) random true (start xs a) = Ok (Y a)) /\ curve Y s /\
    forall e es dW dB, shaped e s -> vertex_backward v (P 0) random (start xs 0) e = Ok (es, (dW, dB)) ->
      pair s e (slope Y) + vertex_reg v (P 0) dw = pairs ss es (map slope xs) + pair_all (kept_weights v) dW dw + pair_all (kept_bias v) dB db.
Proof.
  intros v P random dw db xs ss s head Pl M H E SB HK. destruct (vertex_layers v P dw db Pl M) as (L1 & L2 & L3). destruct Pl as (_ & _ & _ & NC & _).
  destruct (chain_rules v P random dw db (layers_of v) xs ss s head NC H (gives_chain _ _ _ E) L1 L2 (sends_chain _ _ _ SB) HK) as (Y & F & C & Rl). exists Y. split; [|split; [exact C|]].
  - intros a. destruct (F a) as [seen Es]. unfold vertex_forward. rewrite Es. reflexivity.
  - intros e es dW dB Se Eb. unfold vertex_backward in Eb. destruct (chain_forward v (P 0) random true (layers_of v) (start xs 0)) as [[seen y]| |] eqn:Ef; cbn [obind fst] in Eb; try discriminate.
    specialize (Rl seen y eq_refl e es dW dB Se Eb). destruct (changes_of_layers v) as [C1 C2]. rewrite C1, C2, L3 in Rl. exact Rl.
Qed.
Lemma moves_fit_vertex : forall v P dw db a, plain v -> vertex_moves v P dw db -> fit v (P a).
Proof.
  intros v P dw db a (N1 & N2 & _) [M1 M2]. split; [intros Et; apply (M1 Et)|]. split; [intros; contradiction|]. intros Eb. apply (M2 Eb).
Qed.

(** ** The network *)
Section Path.
Context (ps : list (list nat)) (d : dsl) (b : building).
Context (D : ModelFile_Proofs.described ps d) (HI : forall i v, nth_error (ModelFile_Model.vertices d) i = Some v -> nth i ps [] = [] -> ModelFile_Model.acceptsInput v = true) (B : ModelFile_Model.build d = Ok b).
Context (NV : ModelFile_Model.vertices d <> []) (OE : outputs_end d) (EO : ends_are_outputs d) (NS : no_sharing d) (sh : nat -> shape) (W : well_shaped d b sh) (TR : trainable d b sh).
Context (PL : forall id v, ModelFile_Model.vertex_at d id = Ok v -> plain v).
Notation g := (network d b).
Notation n := (length (ModelFile_Model.vertices d)).

Definition path_moves (P : R -> nat -> params) (dw db : nat -> fn) : Prop := forall id v, ModelFile_Model.vertex_at d id = Ok v -> vertex_moves v (fun a => P a id) (dw id) (db id).
Lemma path_fits : forall P dw db a, path_moves P dw db -> all_fit d (P a).
Proof. intros P dw db a M id v E. exact (moves_fit_vertex v (fun a => P a id) (dw id) (db id) a (PL id v E) (M id v E)). Qed.

Section Values.
Context (P : R -> nat -> params) (dw db : nat -> fn) (M : path_moves P dw db) (r : example) (G : given_fit d (given r)) (HK : record_off_kinks d g (P 0) r).
Definition V (id : nat) (a : R) : T := val d b (P a) (random r) true (given r) id.
Definition paths (id : nat) : list path := match ins g id with [] => map (fun hx (_ : R) => snd hx) (filter (fun hx => Nat.eqb (fst hx) id) (combine (heads g) (given r))) | cs => map (fun c => V (from g c)) cs end.
Lemma paths_start : forall id a, start (paths id) a = xs_of d b (P a) (random r) true (given r) id.
Proof. intros id a. unfold start, paths, xs_of. destruct (ins g id); rewrite map_map; reflexivity. Qed.
Lemma value_rule : forall id v, ModelFile_Model.vertex_at d id = Ok v ->
  curve (V id) (sh id) /\ Forall2 curve (paths id) (arriving_shapes d b sh id v) /\
  forall e es dW dB, shaped e (sh id) -> vertex_backward v (P 0 id) (random r id) (xs_of d b (P 0) (random r) true (given r) id) e = Ok (es, (dW, dB)) ->
    pair (sh id) e (slope (V id)) + vertex_reg v (P 0 id) (dw id) = pairs (arriving_shapes d b sh id v) es (map slope (paths id)) + pair_all (kept_weights v) dW (dw id) + pair_all (kept_bias v) dB (db id).
Proof.
  intros id. induction id as [id IH] using lt_wf_ind. intros v E. pose proof (fun a => path_fits P dw db a M) as F. pose proof (fun a => flow ps d b D HI B sh W (P a) (F a) (random r) true (given r) G id v E) as FL.
  assert (CP : Forall2 curve (paths id) (arriving_shapes d b sh id v)).
  { pose proof (proj1 (proj2 (FL 0))) as S0. unfold paths. unfold xs_of in S0. destruct (ins g id) as [|c cs] eqn:Ei.
    - revert S0. generalize (arriving_shapes d b sh id v). generalize (filter (fun hx => Nat.eqb (fst hx) id) (combine (heads g) (given r))). intros l. induction l as [|hx l IHl]; intros ss S0; cbn [map] in *; inversion S0; subst; constructor; [now apply curve_const|now apply IHl].
    - unfold arriving_shapes. pose proof (head_ins ps d b D HI B id v E) as HH. destruct (ModelFile_Model.acceptsInput v) eqn:A; [rewrite (proj1 HH eq_refl) in Ei; discriminate|]. rewrite <- (arriving_ins d b), map_map, Ei. apply Forall2_maps. intros x Hx. rewrite <- Ei in Hx. apply in_ins in Hx as [Hx Ht].
      destruct (conn_range ps d b D HI B x Hx) as (R1 & R2 & _ & R3). destruct (proj1 (node_vertex ps d b D HI B (from g x))) as [u Eu]; [now apply (node_iff ps d b D HI B)|]. rewrite Ht in R3. now apply (IH _ R3 u Eu). }
  destruct (vertex_rule v (fun a => P a id) (random r id) (dw id) (db id) (paths id) _ (sh id) _ (PL id v E) (M id v E) CP (W id v E) (TR id v E)) as (Y & FY & CY & RY).
  { rewrite paths_start. apply (HK id v _ E). rewrite inputs_same. apply (proj1 (FL 0)). lia. }
  assert (EY : V id = Y).
  { apply functional_extensionality. intros a. specialize (FY a). rewrite paths_start in FY. destruct (FL a) as (_ & _ & A3 & _). unfold forward_at in A3. rewrite E in A3. cbn [obind] in A3. rewrite FY in A3. injection A3 as A3. unfold V. symmetry. exact A3. }
  rewrite EY. split; [exact CY|]. split; [exact CP|]. rewrite <- (paths_start id 0). exact RY.
Qed.
End Values.

(** The errors on the way back, with what every vertex keeps, for one record. *)
Definition kept_sum (dw db : nat -> fn) (id : nat) (v : vertex) (k : list T * list T) : R := pair_all (kept_weights v) (fst k) (dw id) + pair_all (kept_bias v) (snd k) (db id).
Lemma back_sum : forall P dw db r (err msg : nat -> T) (es : nat -> list T) (k : nat -> list T * list T), path_moves P dw db -> given_fit d (given r) -> record_off_kinks d g (P 0) r ->
  (forall id v, ModelFile_Model.vertex_at d id = Ok v -> shaped (err id) (sh id) /\ vertex_backward v (P 0 id) (random r id) (xs_of d b (P 0) (random r) true (given r) id) (err id) = Ok (es id, k id) /\ (ins g id <> [] -> es id = map msg (ins g id))) ->
  (forall id c, node g id -> outs g id = [c] -> err id = msg c) ->
  total (fun o => pair (sh o) (err o) (slope (V P r o))) (outputs g) + over_vertices d (fun id v => vertex_reg v (P 0 id) (dw id)) = over_vertices d (fun id v => kept_sum dw db id v (k id)).
Proof.
  intros P dw db r err msg es k M G HK HB HE. set (h := fun c => pair (sh (from g c)) (msg c) (slope (V P r (from g c)))).
  assert (Hn : forall id, In id (seq 1 n) -> exists v, ModelFile_Model.vertex_at d id = Ok v) by (intros id Hid%in_seq; apply (node_vertex ps d b D HI B), (node_iff ps d b D HI B); lia).
  assert (A1 : total (fun id => pair (sh id) (err id) (slope (V P r id))) (seq 1 n) + over_vertices d (fun id v => vertex_reg v (P 0 id) (dw id)) = total (fun id => total h (ins g id)) (seq 1 n) + over_vertices d (fun id v => kept_sum dw db id v (k id))).
  { unfold over_vertices. rewrite <- !total_add. apply total_ext. intros id Hid. destruct (Hn id Hid) as [v Ev]. rewrite Ev. destruct (HB id v Ev) as (Se & Eb & Em). destruct (value_rule P dw db M r G HK id v Ev) as (_ & CP & RV).
    destruct (k id) as [dW dB] eqn:Ek. rewrite (RV _ _ _ _ Se Eb). unfold kept_sum. cbn [fst snd]. rewrite <- Rplus_assoc. f_equal. f_equal.
    unfold paths in *. pose proof (head_ins ps d b D HI B id v Ev) as HH. destruct (ins g id) as [|c cs] eqn:Ei.
    - transitivity 0; [|reflexivity]. generalize (arriving_shapes d b sh id v) (es id). generalize (filter (fun hx => Nat.eqb (fst hx) id) (combine (heads g) (given r))). intros l. induction l as [|hx l IHl]; intros [|s ss] [|e l']; cbn [map pairs]; try reflexivity. rewrite IHl.
      unfold pair, over. destruct s as [[r0 c0] k0]. unfold dot. rewrite (Sum_zero rops Ropp rring); [cbn; ring|]. intros i1 _. apply (Sum_zero rops Ropp rring). intros i2 _. apply (Sum_zero rops Ropp rring). intros i3 _.
      assert (Z : slope (fun _ : R => snd hx) i2 i3 i1 = 0) by (unfold slope; apply is_derive_unique, D_const). rewrite Z. cbn. ring.
    - rewrite (Em ltac:(discriminate)). unfold arriving_shapes. destruct (ModelFile_Model.acceptsInput v); [discriminate (proj1 HH eq_refl)|]. rewrite <- (arriving_ins d b), map_map, Ei. clear. generalize (c :: cs). intros l. induction l as [|x l IHl]; [reflexivity|]. cbn [map pairs]. rewrite IHl. reflexivity. }
  assert (NDs : NoDup (seq 1 n)) by apply seq_NoDup.
  assert (A2 : total (fun id => total h (ins g id)) (seq 1 n) = total (fun id => total h (outs g id)) (seq 1 n)).
  { unfold ins, outs. rewrite (total_group (to g) h), (total_group (from g) h); try exact NDs; [reflexivity| |]; intros c Hc%in_seq; destruct (conn_range ps d b D HI B c ltac:(unfold conn; lia)) as (R1 & R2 & _); apply in_seq; lia. }
  destruct (network_outputs ps d b D HI B OE) as [PO1 PO2]. pose proof (network_ends ps d b D HI B EO) as ND. pose proof (network_branches d b B NS) as NB.
  assert (A3 : total (fun id => pair (sh id) (err id) (slope (V P r id))) (seq 1 n) = total (fun o => pair (sh o) (err o) (slope (V P r o))) (outputs g) + total (fun id => total h (outs g id)) (seq 1 n)).
  { rewrite <- (total_subset (fun o => pair (sh o) (err o) (slope (V P r o))) (seq 1 n) (outputs g) NDs PO1).
    - rewrite <- total_add. apply total_ext. intros id Hid. assert (Nid : node g id) by (apply (node_iff ps d b D HI B); apply in_seq in Hid; lia). specialize (NB id). destruct (outs g id) as [|c [|]] eqn:Eo; [| |cbn in NB; lia].
      + rewrite (proj2 (Graph_Walk_Proofs.existsb_In id (outputs g)) (ND id Nid Eo)). unfold total. cbn. ring.
      + assert (No : existsb (Nat.eqb id) (outputs g) = false). { destruct (existsb (Nat.eqb id) (outputs g)) eqn:Ex; [|reflexivity]. apply Graph_Walk_Proofs.existsb_In in Ex. destruct (PO2 id Ex) as [_ Z]. rewrite Z in Eo. discriminate. }
        rewrite No. unfold total. cbn [fold_right]. unfold h. assert (Ic : In c (outs g id)) by (rewrite Eo; now left). apply in_outs in Ic as [_ Ic]. rewrite Ic, (HE id c Nid Eo). ring.
    - intros o Ho. apply PO2 in Ho as [No _]. apply (node_iff ps d b D HI B) in No. apply in_seq. lia. }
  lra.
Qed.
End Path.
