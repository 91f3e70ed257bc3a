(** Networks in which the errors do not get through. *)
From Coq Require Import List Arith Bool NArith Reals Lia Permutation.
From Verif Require Import Outcome Tensor_Model Tensor_Spec Activation_Model Layer_Model Graph_Model Graph_Spec Graph_Forward Graph_Props Graph_Back_Props Graph_Blocked Net_Model Net_Spec Net_Proofs Net_Vertex Net_Graph Net_Flow Net_Train.
From Verif Require ModelFile_Model ModelFile_Spec ModelFile_Proofs Loss_Model.
Import ListNotations.
Local Open Scope nat_scope.

Lemma flatten_blocks : forall v p random x e s, several_rows_and_channels s = true -> shaped x s -> shaped e (flattened s) -> layer_backward v p random Flatten [x] e = Throw.
Proof.
  intros v p random x e [[r c] k] H Hx He. unfold several_rows_and_channels in H. rewrite !andb_true_iff, negb_true_iff, Nat.eqb_neq, Nat.ltb_lt, Nat.ltb_lt in H. destruct H as [[N1 N2] N3].
  cbn [layer_backward flatten_forward obind snd]. destruct (shaped_rows _ _ _ _ Hx) as (-> & -> & _). unfold flattened in He. destruct (Nat.eqb_spec r 1); [contradiction|]. destruct (shaped_rows _ _ _ _ He) as (E1 & E2 & _).
  unfold flatten_backward, reshape, elementsPerChannel. rewrite E1, E2. destruct (Nat.eqb_spec r 1); [contradiction|]. cbn [andb]. destruct (Nat.eqb_spec (1 * (r * c * k)) (r * c)) as [E|]; [|reflexivity]. exfalso. nia.
Qed.
Lemma chain_blocks : forall v p random ls x s s' e, several_rows_and_channels s = true -> shaped x s -> chain_shape v ls [flattened s] = Some s' -> Forall (layer_fit v p) ls -> chain_sends v false ls [flattened s] -> shaped e s' ->
  (do r <- chain_forward v p random true (Flatten :: ls) [x]; chain_backward v p random (combine (Flatten :: ls) (fst r)) e) = Throw.
Proof.
  intros v p random ls x s s' e H Hx E F B He. destruct (layer_forward_ok v p random true Flatten [x] [s] (flattened s)) as (y & Ey & Y); [now apply single|reflexivity|exact I|].
  cbn [chain_forward]. rewrite Ey. cbn [obind]. destruct (chain_backward_ok v p random ls false [y] [flattened s] s') as (r & z & Er & Z); [now apply single|exact E|exact F|exact B|]. rewrite Er. cbn [obind fst combine chain_backward].
  destruct (Z e He) as (es & dW & dB & Q1 & _ & _ & _ & _ & Q6). rewrite Q1. cbn [obind fst]. specialize (Q6 eq_refl). inversion Q6 as [|e' ? ? ? He' R]; subst. inversion R; subst. now rewrite (flatten_blocks v p random x e' s H Hx He').
Qed.
Lemma vertex_blocks : forall v p random xs ss s e, Forall2 shaped xs ss -> gives v ss = Some s -> fit v p -> clogged v ss = true -> shaped e s -> vertex_backward v p random xs e = Throw.
Proof.
  intros v p random xs ss s e H E F C He. pose proof (gives_chain _ _ _ E) as G. pose proof (fit_layers _ _ F) as FL. unfold vertex_backward.
  assert (One : exists ls s0, layers_of v = Flatten :: ls /\ ss = [s0] /\ several_rows_and_channels s0 = true /\ chain_sends v false ls [flattened s0]).
  { unfold clogged in C. unfold layers_of. fold (tail_layers v). unfold gives, makes in E. destruct (ModelFile_Model.node_type v) eqn:Et; try discriminate.
    - apply andb_true_iff in C as [C1 C2]. destruct ss as [|s0 [|]]; try discriminate. cbn [existsb] in C2. rewrite orb_false_r in C2. rewrite C1. eexists. exists s0. split; [reflexivity|]. split; [reflexivity|]. split; [exact C2|].
      cbn [app chain_sends layer_sends]. split; [exact I|]. intros s' _. apply tail_sends.
    - destruct ss as [|s0 [|]]; try discriminate. cbn [existsb] in C. rewrite orb_false_r in C. eexists. exists s0. split; [reflexivity|]. split; [reflexivity|]. split; [exact C|]. cbn [app]. apply tail_sends.
    - apply andb_true_iff in C as [C1 C2]. destruct ss as [|s0 [|]]; try discriminate. cbn [existsb] in C2. rewrite orb_false_r in C2. rewrite C1. eexists. exists s0. split; [reflexivity|]. split; [reflexivity|]. split; [exact C2|].
      cbn [app chain_sends layer_sends]. split; [exact I|]. intros s' _. apply tail_sends. }
  destruct One as (ls & s0 & L & -> & S0 & B). rewrite L in *. inversion H as [|x ? ? ? Hx R]; subst. inversion R; subst. apply chain_blocks with (s := s0) (s' := s); auto. now inversion FL.
Qed.

Section Clogged.
Context (ps : list (list nat)) (d : dsl) (b : building).
Context (D : ModelFile_Proofs.described ps d) (HI : forall i v, nth_error (ModelFile_Model.vertices d) i = Some v -> nth i ps [] = [] -> ModelFile_Model.acceptsInput v = true) (B : ModelFile_Model.build d = Ok b).
Context (NV : ModelFile_Model.vertices d <> []) (OE : outputs_end d) (EO : ends_are_outputs d) (sh : nat -> shape) (W : well_shaped d b sh).
Context (TR : forall id v, ModelFile_Model.vertex_at d id = Ok v -> clogged v (arriving_shapes d b sh id v) = true \/ sends_back v (ModelFile_Model.acceptsInput v) (arriving_shapes d b sh id v)).
Context (CL : exists id v, ModelFile_Model.vertex_at d id = Ok v /\ clogged v (arriving_shapes d b sh id v) = true).
Notation g := (network d b).
Notation n := (length (ModelFile_Model.vertices d)).

Lemma record_blocked : exists fuel0, forall fuel L pa r, fuel0 <= fuel -> In L losses -> all_fit d pa -> example_fits d b sh r -> train_record d g pa (random r) L fuel (given r) (truth r) = Throw.
Proof.
  assert (WF := network_well_formed ps d b D HI B). assert (PO := network_outputs ps d b D HI B OE). assert (ND := network_ends ps d b D HI B EO). assert (NO := network_has_output ps d b D HI B EO NV).
  destruct (prediction_computes_the_values_partial g WF PO) as [f1 P1]. destruct (blocked g WF PO NO ND) as [f2 P2]. exists (S (f1 + f2 + n)). intros fuel L pa r Hf HL F [G Tr].
  unfold train_record. pose proof (flow_values ps d b D HI B sh W pa F (random r) true (given r) G) as V.
  destruct (P1 T (forward_at d pa (random r) true) fuel (given r) _ fresh ltac:(lia) (given_count d b (given r) G) V ltac:(intros c _; reflexivity)) as (st1 & calls1 & E1 & _). rewrite E1. cbn [snd obind].
  pose proof (flow_outputs ps d b D HI B sh W pa F (random r) true (given r) G) as FO. set (val := Net_Flow.val d b pa (random r) true (given r)) in *.
  destruct (omapM_seq (fun i => do t <- vec_at (truth r) i; do y <- vec_at (map val (outputs g)) i; Loss_Model.derivative_of L t y) (fun id e => shaped e (sh id)) (outputs g) 0) as (errors & Ee & Fe).
  { intros i o Ho. cbn [Nat.add]. destruct (Forall2_nth_ex _ _ _ _ _ Tr Ho) as (t & Et & St). destruct (Forall2_nth_ex _ _ _ _ _ FO Ho) as (y & Ey & Sy). rewrite (vec_at_nth _ _ _ Et), (vec_at_nth _ _ _ Ey). cbn [obind]. now apply loss_shaped. }
  rewrite Ee. cbn [obind].
  assert (Q : snd (backward_outputs g (backward_at d g pa (random r) fuel (given r)) add_errors divide_error fuel (combine (outputs g) errors) {| prior_error := fun _ => None; received := [] |}) <> Fine).
  { apply P2 with (good := fun id e => shaped e (sh id)) (bad := fun id => match ModelFile_Model.vertex_at d id with Ok v => clogged v (arriving_shapes d b sh id v) | _ => false end) (some := fun id => let '(r, c, k) := sh id in uniform r c k 0%R).
    - intros; now apply shaped_add.
    - intros; now apply shaped_divide.
    - intros id _. destruct (sh id) as [[r0 c0] k0]. apply shaped_uniform.
    - intros id e Nid Se. apply (node_vertex ps d b D HI B) in Nid as [v Ev]. rewrite Ev. unfold backward_at, changes_at. rewrite Ev. cbn [obind]. destruct (flow ps d b D HI B sh W pa F (random r) true (given r) G id v Ev) as (A1 & A2 & _). rewrite inputs_same, A1.
      2:{ apply ModelFile_Proofs.vertex_at_ok in Ev. lia. }
      cbn [obind]. destruct (clogged v (arriving_shapes d b sh id v)) eqn:C.
      + rewrite (vertex_blocks v (pa id) (random r id) _ _ (sh id) e A2 (W id v Ev) (F id v Ev) C Se). discriminate.
      + destruct (TR id v Ev) as [X|X]; [congruence|]. destruct (vertex_backward_ok v (pa id) (random r id) _ _ _ (sh id) e A2 (W id v Ev) (F id v Ev) X Se) as (es & dW & dB & Q1 & Q2 & Q3 & Q4). rewrite Q1. exists es. split; [reflexivity|].
        intros Hi. destruct (ModelFile_Model.acceptsInput v) eqn:A; [apply (head_ins ps d b D HI B id v Ev) in A; contradiction|]. specialize (Q4 eq_refl). unfold arriving_shapes in Q4. rewrite A, <- (arriving_ins d b), map_map in Q4. clear - Q4.
        revert es Q4. induction (ins g id) as [|c cs IH]; intros es H; cbn [map] in H; inversion H; subst; constructor; auto.
    - destruct CL as (id & v & Ev & C). exists id. split; [apply (node_vertex ps d b D HI B); eauto|]. now rewrite Ev.
    - lia.
    - exact Fe.
    - intros c _. reflexivity.
    - reflexivity. }
  destruct (backward_outputs _ _ _ _ _ _ _) as [st' []]; [contradiction Q; reflexivity|reflexivity|reflexivity].
Qed.
End Clogged.
