(** Proofs for C102: what the last layer of a network makes of its outputs. *)
From Coq Require Import List Arith Bool NArith Reals Lia Lra.
From Verif Require Import Outcome Tensor_Model Tensor_Spec Activation_Model Layer_Model Graph_Model Graph_Spec Graph_Forward Net_Model Net_Spec Net_Proofs Net_Vertex Net_Graph Net_Flow Net_Props.
From Verif Require ModelFile_Model ModelFile_Spec ModelFile_Proofs ModelFile_Props.
Import ListNotations.
Local Open Scope nat_scope.

Lemma chain_last : forall v p random training l ls xs r y, ls <> [] \/ (exists x, xs = [x]) -> chain_forward v p random training (ls ++ [l]) xs = Ok (r, y) ->
  exists r' z, chain_forward v p random training ls xs = Ok (r', z) /\ layer_forward v p random training l [z] = Ok y.
Proof.
  intros v p random training l ls. induction ls as [|a ls IH]; intros xs r y N H; cbn [app chain_forward] in *.
  - destruct N as [N|[x ->]]; [contradiction|]. destruct (layer_forward v p random training l [x]) as [z| |] eqn:E; try discriminate. cbn [obind fst snd] in H. injection H as _ <-. eauto.
  - destruct (layer_forward v p random training a xs) as [z| |] eqn:E; try discriminate. cbn [obind] in *. destruct (chain_forward v p random training (ls ++ [l]) [z]) as [[r1 y1]| |] eqn:E1; try discriminate. cbn [obind fst snd] in H. injection H as _ <-.
    destruct (IH [z] r1 y1) as (r' & z' & Q1 & Q2); [right; eauto|exact E1|]. rewrite Q1. cbn [obind fst snd]. eauto.
Qed.
Lemma shape_last : forall v ls ss s, ls <> [] \/ (exists s, ss = [s]) -> chain_shape v (ls ++ [Activate]) ss = Some s -> chain_shape v ls ss = Some s.
Proof.
  intros v ls. induction ls as [|a ls IH]; intros ss s N H; cbn [app chain_shape] in *.
  - destruct N as [N|[x ->]]; [contradiction|]. exact H.
  - destruct (layer_shape v a ss) as [s0|]; [|discriminate]. apply IH; [right; eauto|exact H].
Qed.
(** A layer with an activation applies it last, to a tensor of the shape it gives. *)
Lemma activated : forall v p random training xs ss s y, ModelFile_Model.weighted (ModelFile_Model.node_type v) = true -> Forall2 shaped xs ss -> gives v ss = Some s -> fit v p ->
  vertex_forward v p random training xs = Ok y -> exists z, shaped z s /\ activate (activation_of (ModelFile_Model.activation_type v)) z = Ok y.
Proof.
  intros v p random training xs ss s y Wt H E F V.
  assert (L : exists ls, layers_of v = ls ++ [Activate] /\ ls <> []).
  { unfold layers_of. rewrite Wt. rewrite !app_assoc. eexists. split; [reflexivity|]. destruct (ModelFile_Model.node_type v); try discriminate Wt; try (destruct (1 <? _)); discriminate. }
  destruct L as (ls & L & N). assert (G := gives_chain v ss s E). assert (FL := fit_layers v p F). unfold vertex_forward in V. rewrite L in *.
  destruct (chain_forward v p random training (ls ++ [Activate]) xs) as [[r y']| |] eqn:C; try discriminate. cbn [obind snd] in V. injection V as ->.
  destruct (chain_last v p random training Activate ls xs r y (or_introl N) C) as (r' & z & C1 & C2). apply Forall_app in FL as [FL _].
  destruct (chain_forward_ok v p random training ls xs ss s H (shape_last v ls ss s (or_introl N) G) FL) as (r2 & z2 & C3 & Z). rewrite C1 in C3. injection C3 as <- <-. exists z. split; [exact Z|exact C2].
Qed.
(** So do the outputs of a network. *)
Lemma outputs_activated : forall cs o r rb l d net sh, ModelFile_Spec.joins_something cs -> ModelFile_Model.run cs (ModelFile_Model.new_dsl o r rb l) = Ok d -> ModelFile_Model.build d = Ok net ->
  outputs_end d -> well_shaped d net sh -> forall a, (forall id v, ModelFile_Model.vertex_at d id = Ok v -> ModelFile_Model.producesOutput v = true ->
    ModelFile_Model.acceptsInput v = false /\ ModelFile_Model.node_type v = ModelFile_Model.full /\ ModelFile_Model.activation_type v = a) ->
  exists fuel0, forall fuel ps random training given st, fuel0 <= fuel -> all_fit d ps -> given_fit d given -> idle (network d net) (next_input st) ->
  exists st' zs ys, predict (network d net) (forward_at d ps random training) fuel given st = (st', Ok ys) /\ outputs_fit (network d net) sh zs /\ Forall2 (fun z y => activate (activation_of a) z = Ok y) zs ys /\
    idle (network d net) (next_input st').
Proof.
  intros cs o r rb l d net sh J Rn Bd OE W a A. destruct (ModelFile_Props.program_ok _ _ _ _ _ _ J Rn) as [D HI].
  destruct (network_computes_partial cs o r rb l d net sh J Rn Bd OE W) as [fuel0 P]. destruct (network_predicts_partial cs o r rb l d net sh J Rn Bd OE W) as [fuel1 P1]. exists (max fuel0 fuel1). intros fuel ps random training given st Hf F G I.
  destruct (P fuel ps random training given st ltac:(lia) F G I) as (st' & value & E & _ & V2 & V3). destruct (P1 fuel ps random training given st ltac:(lia) F G I) as (st1 & ys1 & E1 & _ & I1). rewrite E in E1. injection E1 as <- _.
  assert (Q : exists zs, outputs_fit (network d net) sh zs /\ Forall2 (fun z y => activate (activation_of a) z = Ok y) zs (map value (outputs (network d net)))).
  { assert (X : forall id, In id (outputs (network d net)) -> exists z, shaped z (sh id) /\ activate (activation_of a) z = Ok (value id)).
    { intros id Hid. apply (output_iff _ d net D HI Bd) in Hid as (v & Ev & Pv). destruct (A id v Ev Pv) as (A1 & A2 & <-). specialize (W id v Ev). unfold arriving_shapes in W. rewrite A1 in W.
      apply (activated v (ps id) (random id) training (map value (ModelFile_Spec.arriving id (ModelFile_Model.connections net))) (map sh (ModelFile_Spec.arriving id (ModelFile_Model.connections net))) (sh id) (value id)); [now rewrite A2| |exact W|now apply F|now apply V2].
      rewrite <- (arriving_ins d net). rewrite !map_map. apply Forall2_maps. intros x Hx. apply in_ins in Hx as [Hx _]. destruct (conn_range _ d net D HI Bd x Hx) as (R1 & _ & _ & _).
      destruct (proj1 (node_vertex _ d net D HI Bd (from (network d net) x))) as [u Eu]; [now apply (node_iff _ d net D HI Bd)|]. exact (V3 _ _ Eu). }
    unfold outputs_fit. revert X. generalize (outputs (network d net)). intros ids. induction ids as [|id ids IH]; intros X; [exists []; split; constructor|].
    destruct (X id (or_introl eq_refl)) as (z & Z1 & Z2). destruct IH as (zs & Q1 & Q2); [intros; apply X; now right|]. exists (z :: zs). split; constructor; assumption. }
  destruct Q as (zs & Q1 & Q2). exists st', zs, (map value (outputs (network d net))). auto.
Qed.
