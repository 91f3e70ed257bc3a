(** Training a network whose shapes fit. *)
From Coq Require Import List Arith Bool NArith Reals Lia Permutation.
From Verif Require Import Outcome Tensor_Model Tensor_Spec Activation_Model Layer_Model Graph_Model Graph_Spec Graph_Forward Graph_Props Graph_Back_Props Graph_Walk_Proofs Graph_Walk_Props Net_Model Net_Spec Net_Proofs Net_Vertex Net_Graph Net_Flow.
From Verif Require ModelFile_Model ModelFile_Spec ModelFile_Proofs ModelFile_Text Loss_Model Loss_Proofs.
Import ListNotations.
Local Open Scope nat_scope.

Definition losses : list Loss_Model.loss := [Loss_Model.mse; Loss_Model.mae; Loss_Model.smae; Loss_Model.bce; Loss_Model.cce].
Lemma loss_shaped : forall L t y s, In L losses -> shaped t s -> shaped y s -> exists e, Loss_Model.derivative_of L t y = Ok e /\ shaped e s.
Proof.
  intros L t y [[r c] k] H [f Ht] [h Hy]. destruct H as [<-|[<-|[<-|[<-|[<-|[]]]]]].
  - destruct (Loss_Proofs.mse_elements t y r c k f h Ht Hy) as (_ & e & E & X). exists e. split; [exact E|eexists; exact X].
  - destruct (Loss_Proofs.mae_elements t y r c k f h Ht Hy) as (_ & e & E & X). exists e. split; [exact E|eexists; exact X].
  - destruct (Loss_Proofs.smae_elements t y r c k f h Ht Hy) as (_ & e & E & X). exists e. split; [exact E|eexists; exact X].
  - destruct (Loss_Proofs.bce_elements t y r c k f h Ht Hy) as (_ & e & E & X). exists e. split; [exact E|eexists; exact X].
  - destruct (Loss_Proofs.cce_elements t y r c k f h Ht Hy) as (_ & e & E & X). exists e. split; [exact E|eexists; exact X].
Qed.
Lemma omapM_seq : forall {A B} (f : nat -> outcome B) (Q : A -> B -> Prop) os k, (forall i o, nth_error os i = Some o -> exists e, f (k + i) = Ok e /\ Q o e) -> exists es, omapM f (seq k (length os)) = Ok es /\ Forall2 Q os es.
Proof.
  intros A B f Q os. induction os as [|o os IH]; intros k H; [exists []; split; [reflexivity|constructor]|]. cbn [length seq omapM]. destruct (H 0 o eq_refl) as (e & E & Qe). rewrite Nat.add_0_r in E. rewrite E. cbn [obind].
  destruct (IH (S k)) as (es & Es & Qs); [intros i o' Ho; destruct (H (S i) o' Ho) as (x & Ex & Qx); exists x; split; [rewrite <- Ex; f_equal; lia|exact Qx]|]. rewrite Es. cbn [obind]. exists (e :: es). split; [reflexivity|now constructor].
Qed.
Lemma Forall2_nth_ex : forall {A B} (Q : A -> B -> Prop) l m i a, Forall2 Q l m -> nth_error l i = Some a -> exists x, nth_error m i = Some x /\ Q a x.
Proof. intros A B Q l m i a F. revert i. induction F as [|x y l m H F IH]; intros [|i] E; try discriminate; [injection E as <-; exists y; now split|]. now apply IH. Qed.
Lemma vec_at_nth : forall {A} (l : list A) i x, nth_error l i = Some x -> vec_at l i = Ok x.
Proof. intros A l i x H. unfold vec_at. now rewrite H. Qed.
Lemma omapM_all : forall {A B} (f : A -> outcome B) (Q : A -> B -> Prop) l, (forall x, In x l -> exists y, f x = Ok y /\ Q x y) -> exists ys, omapM f l = Ok ys /\ Forall2 Q l ys.
Proof.
  intros A B f Q l. induction l as [|x l IH]; intros H; [exists []; split; [reflexivity|constructor]|]. cbn [omapM]. destruct (H x (or_introl eq_refl)) as (y & -> & Qy). cbn [obind]. destruct IH as (ys & Es & Qs); [intros; apply H; now right|].
  rewrite Es. cbn [obind]. exists (y :: ys). split; [reflexivity|now constructor].
Qed.
Lemma kept_once : forall (Q : nat -> list T * list T -> Prop) ids l id, NoDup ids -> Forall2 (fun v y => fst y = v /\ Q v (snd y)) ids l -> In id ids -> exists k, kept_for id l = [k] /\ Q id k.
Proof.
  intros Q ids l id ND F I. induction F as [|v y ids l [H1 H2] F IH]; [destruct I|]. apply NoDup_cons_iff in ND as [N1 N2]. unfold kept_for in *. cbn [filter]. rewrite H1. destruct (Nat.eqb_spec v id) as [->|N].
  - exists (snd y). split; [|exact H2]. cbn [map]. f_equal. assert (Z : filter (fun x => Nat.eqb (fst x) id) l = []).
    { clear - F N1. induction F as [|v y ids l [H1 _] F IH]; [reflexivity|]. cbn [filter]. rewrite H1. destruct (Nat.eqb_spec v id) as [->|N]; [contradict N1; now left|]. apply IH. intros I. apply N1. now right. }
    now rewrite Z.
  - apply IH; [exact N2|]. destruct I as [->|I]; [contradiction|exact I].
Qed.
Lemma kept_app : forall id a b, kept_for id (a ++ b) = kept_for id a ++ kept_for id b.
Proof. intros id a b. unfold kept_for. now rewrite filter_app, map_app. Qed.

Section Train.
Context (ps : list (list nat)) (d : dsl) (b : building).
Context (D : ModelFile_Proofs.described ps d) (HI : forall i v, nth_error (ModelFile_Model.vertices d) i = Some v -> nth i ps [] = [] -> ModelFile_Model.acceptsInput v = true) (B : ModelFile_Model.build d = Ok b).
Context (NV : ModelFile_Model.vertices d <> []) (OE : outputs_end d) (EO : ends_are_outputs d) (sh : nat -> shape) (W : well_shaped d b sh) (TR : trainable d b sh).
Notation g := (network d b).
Notation n := (length (ModelFile_Model.vertices d)).

Definition example_fits (r : example) : Prop := given_fit d (given r) /\ outputs_fit g sh (truth r).
Lemma inputs_same : forall pa random given fuel id, inputs_of d g pa random fuel given id = inputs_at d b pa random true given fuel id.
Proof.
  intros pa random given fuel. induction fuel as [|fuel IH]; intros id; [reflexivity|]. cbn [inputs_of inputs_at]. destruct (ins g id) as [|c cs]; [reflexivity|].
  generalize (c :: cs). intros l. induction l as [|x l IHl]; [reflexivity|]. cbn [omapM]. now rewrite IH, IHl.
Qed.

Lemma record_ok : exists fuel0, forall fuel L pa r, fuel0 <= fuel -> In L losses -> all_fit d pa -> example_fits r ->
  exists l, train_record d g pa (random r) L fuel (given r) (truth r) = Ok l /\ forall id v, ModelFile_Model.vertex_at d id = Ok v -> exists k, kept_for id l = [k] /\ kept_fit v k.
Proof.
  assert (WF := network_well_formed ps d b D HI B). assert (PO := network_outputs ps d b D HI B OE). assert (ND := network_ends ps d b D HI B EO). assert (NO := network_has_output ps d b D HI B EO NV).
  destruct (prediction_computes_the_values_partial g WF PO) as [f1 P1]. destruct (errors_are_sent_back_partial g WF PO NO ND) as [f2 P2]. exists (S (f1 + f2 + n)). intros fuel L pa r Hf HL F [G Tr].
  unfold train_record. pose proof (flow_values ps d b D HI B sh W pa F (random r) true (given r) G) as V.
  destruct (P1 T (forward_at d pa (random r) true) fuel (given r) _ fresh ltac:(lia) (given_count d b (given r) G) V ltac:(intros c _; reflexivity)) as (st1 & calls1 & E1 & _). rewrite E1. cbn [snd obind].
  pose proof (flow_outputs ps d b D HI B sh W pa F (random r) true (given r) G) as FO. set (val := Net_Flow.val d b pa (random r) true (given r)) in *.
  destruct (omapM_seq (fun i => do t <- vec_at (truth r) i; do y <- vec_at (map val (outputs g)) i; Loss_Model.derivative_of L t y) (fun id e => shaped e (sh id)) (outputs g) 0) as (errors & Ee & Fe).
  { intros i o Ho. cbn [Nat.add]. destruct (Forall2_nth_ex _ _ _ _ _ Tr Ho) as (t & Et & St). destruct (Forall2_nth_ex _ _ _ _ _ FO Ho) as (y & Ey & Sy). rewrite (vec_at_nth _ _ _ Et), (vec_at_nth _ _ _ Ey). cbn [obind]. now apply loss_shaped. }
  rewrite Ee. cbn [obind].
  assert (CH : forall id v e, ModelFile_Model.vertex_at d id = Ok v -> shaped e (sh id) -> exists es k, changes_at d g pa (random r) fuel (given r) id e = Ok (es, k) /\ kept_fit v k /\ (ins g id <> [] -> Forall2 (fun c x => shaped x (sh (from g c))) (ins g id) es)).
  { intros id v e Ev Se. unfold changes_at. rewrite Ev. cbn [obind]. destruct (flow ps d b D HI B sh W pa F (random r) true (given r) G id v Ev) as (A1 & A2 & _). rewrite inputs_same, A1.
    2:{ apply ModelFile_Proofs.vertex_at_ok in Ev. lia. }
    cbn [obind]. destruct (vertex_backward_ok v (pa id) (random r id) _ _ _ (sh id) e A2 (W id v Ev) (F id v Ev) (TR id v Ev) Se) as (es & dW & dB & Q1 & Q2 & Q3 & Q4). rewrite Q1. exists es, (dW, dB). split; [reflexivity|]. split; [now split|].
    intros Hi. destruct (ModelFile_Model.acceptsInput v) eqn:A; [apply (head_ins ps d b D HI B id v Ev) in A; contradiction|]. specialize (Q4 eq_refl). unfold arriving_shapes in Q4. rewrite A, <- (arriving_ins d b), map_map in Q4. clear - Q4.
    revert es Q4. induction (ins g id) as [|c cs IH]; intros es H; cbn [map] in H; inversion H; subst; constructor; auto. }
  destruct (P2 T (backward_at d g pa (random r) fuel (given r)) add_errors divide_error (fun id e => shaped e (sh id)) fuel errors {| prior_error := fun _ => None; received := [] |}) as (err & msg & calls & st' & E2 & _ & Er & (C1 & C2 & _) & _ & _ & _ & _ & Gd).
  - split; [intros; now apply shaped_add|]. split; [intros; now apply shaped_divide|]. intros id e Nid Se. apply (node_vertex ps d b D HI B) in Nid as [v Ev]. destruct (CH id v e Ev Se) as (es & k & Ec & _ & Fc). exists es. unfold backward_at. rewrite Ec. now split.
  - lia.
  - exact Fe.
  - intros c _. reflexivity.
  - rewrite E2. cbn [received app] in Er. rewrite Er.
    destruct (omapM_all (fun ve => do r0 <- changes_at d g pa (random r) fuel (given r) (fst ve) (snd ve); Ok (fst ve, snd r0)) (fun ve y => fst y = fst ve /\ forall v, ModelFile_Model.vertex_at d (fst ve) = Ok v -> kept_fit v (snd y)) (map (fun v => (v, err v)) calls)) as (l & El & Fl).
    { intros ve Hve. apply in_map_iff in Hve as (id & <- & Hid). cbn [fst snd]. apply C2 in Hid. pose proof (Gd _ Hid) as Sid. apply (node_vertex ps d b D HI B) in Hid as [v Ev]. destruct (CH id v (err id) Ev Sid) as (es & k & Ec & Kc & _). rewrite Ec. cbn [obind snd].
      eexists. split; [reflexivity|]. split; [reflexivity|]. cbn [snd]. intros v' Ev'. rewrite Ev in Ev'. now injection Ev' as <-. }
    rewrite El. exists l. split; [reflexivity|]. intros id v Ev. destruct (kept_once (fun id k => forall v, ModelFile_Model.vertex_at d id = Ok v -> kept_fit v k) calls l id C1) as (k & Ek & Qk).
    + clear - Fl. revert l Fl. induction calls as [|v calls IH]; intros l Fl; cbn [map] in Fl; inversion Fl; subst; constructor; auto.
    + apply C2, (node_vertex ps d b D HI B). eauto.
    + exists k. split; [exact Ek|]. now apply Qk.
Qed.

Lemma records_ok : exists fuel0, forall fuel L pa rs, fuel0 <= fuel -> In L losses -> all_fit d pa -> Forall example_fits rs ->
  exists l, train_records d g L fuel pa rs = Ok l /\ forall id v, ModelFile_Model.vertex_at d id = Ok v -> length (kept_for id l) = length rs /\ Forall (kept_fit v) (kept_for id l).
Proof.
  destruct record_ok as [fuel0 H]. exists fuel0. intros fuel L pa rs Hf HL F E. induction E as [|r rs Er E IH]; [exists []; split; [reflexivity|]; intros id v _; split; [reflexivity|constructor]|].
  destruct (H fuel L pa r Hf HL F Er) as (a & Ea & Ka). destruct IH as (l & El & Kl). cbn [train_records]. rewrite Ea. cbn [obind]. rewrite El. cbn [obind]. exists (a ++ l). split; [reflexivity|]. intros id v Ev.
  rewrite kept_app. destruct (Ka id v Ev) as (k & -> & Fk). destruct (Kl id v Ev) as [L1 L2]. cbn [app length]. split; [now rewrite L1|now constructor].
Qed.

Lemma set_fit : forall pa id v p, ModelFile_Model.vertex_at d id = Ok v -> all_fit d pa -> fit v p -> all_fit d (set_at pa id p).
Proof. intros pa id v p Ev F P i u Eu. unfold set_at. destruct (Nat.eqb_spec i id) as [->|_]; [rewrite Ev in Eu; now injection Eu as <-|now apply F]. Qed.
Lemma update_ok : forall change, keeps_shape change -> forall calls pa pending, NoDup calls -> all_fit d pa ->
  (forall id, In id calls -> exists v, ModelFile_Model.vertex_at d id = Ok v /\ pending id <> [] /\ Forall (kept_fit v) (pending id)) ->
  exists pa', update_all d change calls pa pending = Ok pa' /\ all_fit d pa'.
Proof.
  intros change KS calls. induction calls as [|id calls IH]; intros pa pending ND F H; [now exists pa|]. apply NoDup_cons_iff in ND as [N1 N2]. cbn [update_all]. destruct (H id (or_introl eq_refl)) as (v & Ev & Np & Fp). rewrite Ev. cbn [obind].
  destruct (vertex_apply_ok v (pa id) (change id) (pending id)) as (p & Ep & P); [intros l w e s; apply KS|now apply F|exact Np|exact Fp|]. rewrite Ep. cbn [obind]. apply IH; [exact N2|now apply set_fit with v|].
  intros i Hi. destruct (H i (or_intror Hi)) as (u & Eu & X). exists u. split; [exact Eu|]. unfold set_at. destruct (Nat.eqb_spec i id) as [->|_]; [contradiction|exact X].
Qed.

Lemma batch_ok : no_sharing d -> exists fuel0, forall fuel L change pa rs, fuel0 <= fuel -> In L losses -> keeps_shape change -> all_fit d pa -> rs <> [] -> Forall example_fits rs ->
  exists pa', train_batch d g L fuel change pa rs = Ok pa' /\ all_fit d pa'.
Proof.
  intros NS. assert (WF := network_well_formed ps d b D HI B). assert (PO := network_outputs ps d b D HI B OE). assert (ND := network_ends ps d b D HI B EO).
  destruct records_ok as [f1 R]. destruct (every_layer_is_updated_once_partial g WF PO ND (network_branches d b B NS)) as [f2 U]. exists (f1 + f2). intros fuel L change pa rs Hf HL KS F Ne E.
  destruct (R fuel L pa rs ltac:(lia) HL F E) as (l & El & Kl). unfold train_batch. rewrite El. cbn [obind]. destruct (U fuel (fun _ => true) (fun _ => 1) ltac:(lia) (fun v _ => le_n 1)) as (U1 & U2 & _).
  apply update_ok; [exact KS|exact U1|exact F|]. intros id Hid. apply U2, (node_vertex ps d b D HI B) in Hid as [v Ev]. exists v. split; [exact Ev|]. destruct (Kl id v Ev) as [L1 L2]. split; [|exact L2]. intros Z. rewrite Z in L1. destruct rs; [contradiction|discriminate].
Qed.

(** ** Forks *)
Lemma apply_empty : forall v p change, fit v p -> (needs_errors v -> vertex_apply v p change [] = Throw) /\ (~ needs_errors v -> exists p', vertex_apply v p change [] = Ok p' /\ fit v p').
Proof.
  intros v p change F. unfold vertex_apply, needs_errors. cbn [map concat]. split.
  - intros N. destruct (ModelFile_Model.use_bias v); [reflexivity|]. cbn [obind]. destruct N as [->|N]; [reflexivity|discriminate].
  - intros N. destruct (ModelFile_Model.use_bias v) eqn:Eb; [exfalso; apply N; now right|]. cbn [obind]. destruct (ModelFile_Model.node_type v) eqn:Et; [exfalso; apply N; now left|..].
    all: try (unfold conv_apply; cbn [fold_left obind]).
    all: eexists; split; [reflexivity|]; destruct F as (F1 & F2 & F3); rewrite Et in *; rewrite Eb in *; unfold fit; cbn [weights kernels biases]; rewrite ?Et, ?Eb; repeat split; auto; try discriminate; try (now apply F2).
Qed.
(** Every update of the walk works, until the errors of a layer are used up. *)
Lemma update_throws : forall change, keeps_shape change -> forall calls pa pending, all_fit d pa ->
  (forall id, In id calls -> exists v, ModelFile_Model.vertex_at d id = Ok v /\ Forall (kept_fit v) (pending id)) ->
  forall id v, ModelFile_Model.vertex_at d id = Ok v -> needs_errors v -> (2 <= cnt calls id \/ (1 <= cnt calls id /\ pending id = [])) -> update_all d change calls pa pending = Throw.
Proof.
  intros change KS calls. induction calls as [|i calls IH]; intros pa pending F H id v Ev Nv C; [cbn in C; lia|]. cbn [update_all]. destruct (H i (or_introl eq_refl)) as (u & Eu & Fu). rewrite Eu. cbn [obind].
  assert (Step : forall p, fit u p -> (i = id -> pending id <> []) -> update_all d change calls (set_at pa i p) (set_at pending i []) = Throw).
  { intros p P X. apply (IH _ _ (set_fit _ _ _ _ Eu F P)) with (id := id) (v := v); auto.
    - intros j Hj. destruct (H j (or_intror Hj)) as (w & Ew & Fw). exists w. split; [exact Ew|]. unfold set_at. destruct (Nat.eqb j i); [constructor|exact Fw].
    - unfold set_at. rewrite cnt_cons in C. destruct (Nat.eqb_spec i id) as [->|N]; cbn [one] in C.
      + rewrite Nat.eqb_refl. right. split; [|reflexivity]. destruct C as [C|[_ C]]; [lia|]. now apply X in C.
      + destruct (Nat.eqb_spec id i); [congruence|]. exact C. }
  destruct (pending i) as [|k q] eqn:Ep.
  - destruct (apply_empty u (pa i) (change i) (F i u Eu)) as [A1 A2]. assert (Dec : needs_errors u \/ ~ needs_errors u).
    { unfold needs_errors. destruct (ModelFile_Model.use_bias u); [left; now right|]. destruct (ModelFile_Model.node_type u); auto; right; intros [X|X]; discriminate. }
    destruct Dec as [N|N]; [now rewrite A1|]. destruct (A2 N) as (p & E & P). rewrite E. cbn [obind]. apply Step; [exact P|]. intros ->. rewrite Ev in Eu. injection Eu as <-. contradiction.
  - destruct (vertex_apply_ok u (pa i) (change i) (k :: q)) as (p & E & P); [intros l w e s; apply KS|now apply F|discriminate|exact Fu|]. rewrite E. cbn [obind]. apply Step; [exact P|]. intros ->. rewrite Ep. discriminate.
Qed.
Lemma forks_twice : exists fuel0, forall fuel id, fuel0 <= fuel -> forks d id -> 2 <= cnt (flat_map (apply_calls g fuel) (outputs g)) id.
Proof.
  assert (WF := network_well_formed ps d b D HI B). assert (PO := network_outputs ps d b D HI B OE). assert (ND := network_ends ps d b D HI B EO). destruct (calls_positive g WF PO ND) as [fuel0 H]. exists fuel0. intros fuel id Hf K.
  induction K as [id v Ev Hv|id v e Ev He K IH].
  - destruct (H fuel id Hf) as (_ & H2 & _); [apply (node_vertex ps d b D HI B); eauto|]. apply H2. now rewrite (outs_edges ps d b D HI B id v Ev).
  - destruct (H fuel id Hf) as (_ & _ & H3); [apply (node_vertex ps d b D HI B); eauto|]. assert (C : exists c, In c (outs g id) /\ to g c = e).
    { pose proof Ev as Ev2. apply ModelFile_Proofs.vertex_at_ok in Ev2 as [R N]. assert (I : In (id, e) (ModelFile_Model.connections b)).
      { assert (I : In (id, e) (filter (ModelFile_Order.from_node id) (ModelFile_Model.connections b))); [|now apply filter_In in I]. rewrite (from_edges ps d b D HI B id R). apply in_map_iff. exists e. split; [reflexivity|]. unfold ModelFile_Text.edges_at. now rewrite N. }
      apply (In_nth _ _ (0, 0)) in I as (c & Hc & Ec). exists c. split; [apply in_outs; split; [exact Hc|]|]; unfold from, to; cbn [conns network]; now rewrite Ec. }
    destruct C as (c & Hc & <-). specialize (H3 c Hc). lia.
Qed.
Lemma batch_throws : forall id v, ModelFile_Model.vertex_at d id = Ok v -> needs_errors v -> forks d id ->
  exists fuel0, forall fuel L change pa rs, fuel0 <= fuel -> In L losses -> keeps_shape change -> all_fit d pa -> Forall example_fits rs -> train_batch d g L fuel change pa rs = Throw.
Proof.
  intros id v Ev Nv Fk. assert (WF := network_well_formed ps d b D HI B). assert (PO := network_outputs ps d b D HI B OE). assert (ND := network_ends ps d b D HI B EO).
  destruct records_ok as [f1 R]. destruct forks_twice as [f2 U]. exists (f1 + f2). intros fuel L change pa rs Hf HL KS F E.
  destruct (R fuel L pa rs ltac:(lia) HL F E) as (l & El & Kl). unfold train_batch. rewrite El. cbn [obind]. apply (update_throws change KS) with (id := id) (v := v); auto.
  - intros i Hi. assert (Ni : node g i). { apply in_flat_map in Hi as (o & Ho & Hi). apply (apply_nodes g (proj1 (proj2 (proj2 WF))) fuel o i); [now apply PO|exact Hi]. }
    apply (node_vertex ps d b D HI B) in Ni as [u Eu]. exists u. split; [exact Eu|]. now destruct (Kl i u Eu) as [_ L2].
  - left. apply U; [lia|exact Fk].
Qed.
End Train.
