(** C54, C57, C71: every node is updated, saved, loaded and counted. *)
From Coq Require Import List Arith Bool Lia Permutation.
From Verif Require Import Outcome Graph_Model Graph_Spec Graph_Forward Graph_Props Graph_Back_Props Graph_Walk_Proofs.
Import ListNotations.

(** ** Updating the weights *)
(** In a network in which no node feeds more than one other, an update calls every layer once; so when
    every layer has errors to learn from, it succeeds and uses up all of them. *)
(** Partial, C71: no node feeds two others; otherwise it is refuted. *)
Theorem every_layer_is_updated_once_partial : forall g, well_formed g -> proper_outputs g -> no_dead_ends g -> no_branches g ->
  exists fuel0, forall fuel needs queue, fuel0 <= fuel -> (forall v, node g v -> 0 < queue v) ->
  let calls := flat_map (apply_calls g fuel) (outputs g) in
  NoDup calls /\ (forall v, In v calls <-> node g v) /\
  exists queue', update_weights g needs fuel queue = Some queue' /\ forall v, node g v -> queue' v = 0.
Proof.
  intros g (Hnd & Hh & Hn & rank & Hr) [Ho1 Ho2] Hd Hb. destruct (rank_top g rank) as [top Ht]. exists (S top). intros fuel needs queue Hfu Hq calls.
  assert (Hf : forall o, In o (outputs g) -> rank o < fuel) by (intros o Ho; destruct (Ho2 o Ho) as [No _]; specialize (Ht o No); lia).
  assert (One : forall v, node g v -> cnt calls v = 1).
  { apply (down_ind g rank top Hr Ht). intros v Nv IH. subst calls. rewrite (total_count g rank Hr fuel v Hf Ho1). cbv zeta. specialize (Hb v). destruct (outs g v) as [|c [|c' cs]] eqn:Eo; cbn in Hb; try lia.
    - replace (existsb (Nat.eqb v) (outputs g)) with true by (symmetry; apply existsb_In, Hd; assumption). reflexivity.
    - replace (existsb (Nat.eqb v) (outputs g)) with false. 2:{ symmetry. apply not_true_is_false. intros G. apply existsb_In, Ho2 in G as [_ G]. congruence. }
      cbn [map one]. specialize (IH c (or_introl eq_refl)). cbn. lia. }
  assert (In1 : forall v, In v calls <-> node g v).
  { intros v. split.
    - subst calls. intros H. apply in_flat_map in H as (o & Ho & H). apply (apply_nodes g Hn fuel o); [now apply Ho2|exact H].
    - intros Nv. apply (count_occ_In Nat.eq_dec). rewrite One by exact Nv. lia. }
  assert (ND : NoDup calls).
  { apply (NoDup_count_occ Nat.eq_dec). intros v. destruct (in_dec Nat.eq_dec v calls) as [H|H]; [rewrite One by (now apply In1); lia|]. apply (count_occ_not_In Nat.eq_dec) in H. lia. }
  split; [exact ND|]. split; [exact In1|]. destruct (apply_run_once needs calls queue ND) as (q & E & A & _); [intros v Hv; now apply Hq, In1|]. exists q. split; [exact E|]. intros v Nv. now apply A, In1.
Qed.

(** In general a layer is called once for every way from it to an output. *)
Theorem updates_follow_every_way : forall g, well_formed g -> proper_outputs g ->
  exists fuel0, forall fuel v, fuel0 <= fuel ->
  let calls := flat_map (apply_calls g fuel) (outputs g) in
  (In v (outputs g) -> cnt calls v = 1) /\ (~ In v (outputs g) -> cnt calls v = list_sum (map (fun c => cnt calls (to g c)) (outs g v))).
Proof.
  intros g (Hnd & Hh & Hn & rank & Hr) [Ho1 Ho2]. destruct (rank_top g rank) as [top Ht]. exists (S top). intros fuel v Hfu calls.
  assert (Hf : forall o, In o (outputs g) -> rank o < fuel) by (intros o Ho; destruct (Ho2 o Ho) as [No _]; specialize (Ht o No); lia).
  pose proof (total_count g rank Hr fuel v Hf Ho1) as E. cbv zeta in E. fold calls in E. split; intros Hv.
  - rewrite E. destruct (Ho2 v Hv) as [_ ->]. apply existsb_In in Hv. now rewrite Hv.
  - rewrite E. replace (existsb (Nat.eqb v) (outputs g)) with false; [reflexivity|]. symmetry. apply not_true_is_false. intros G. now apply existsb_In in G.
Qed.
Lemma calls_positive : forall g, well_formed g -> proper_outputs g -> no_dead_ends g ->
  exists fuel0, forall fuel v, fuel0 <= fuel -> node g v -> let calls := flat_map (apply_calls g fuel) (outputs g) in
  1 <= cnt calls v /\ (2 <= length (outs g v) -> 2 <= cnt calls v) /\ forall c, In c (outs g v) -> cnt calls (to g c) <= cnt calls v.
Proof.
  intros g (Hnd & Hh & Hn & rank & Hr) [Ho1 Ho2] Hd. destruct (rank_top g rank) as [top Ht]. exists (S top). intros fuel v Hfu Nv calls.
  assert (Hf : forall o, In o (outputs g) -> rank o < fuel) by (intros o Ho; destruct (Ho2 o Ho) as [No _]; specialize (Ht o No); lia).
  assert (Pos : forall v, node g v -> 1 <= cnt calls v).
  { apply (down_ind g rank top Hr Ht). intros w Nw IH. subst calls. rewrite (total_count g rank Hr fuel w Hf Ho1). cbv zeta. destruct (outs g w) as [|c cs] eqn:Eo.
    - replace (existsb (Nat.eqb w) (outputs g)) with true by (symmetry; apply existsb_In, Hd; assumption). cbn. lia.
    - specialize (IH c (or_introl eq_refl)). cbn [map]. change (1 <= one (existsb (Nat.eqb w) (outputs g)) + (cnt (flat_map (apply_calls g fuel) (outputs g)) (to g c) + list_sum (map (fun d => cnt (flat_map (apply_calls g fuel) (outputs g)) (to g d)) cs))). lia. }
  split; [now apply Pos|]. pose proof (total_count g rank Hr fuel v Hf Ho1) as E. cbv zeta in E. fold calls in E. split.
  - intros Hv. rewrite E. assert (G : length (outs g v) <= list_sum (map (fun d => cnt calls (to g d)) (outs g v))).
    { apply sum_ge. intros c Hc. apply in_outs in Hc as [Cc _]. apply Pos. right. now apply ins_ne. }
    lia.
  - intros c Hc. rewrite E. apply in_split in Hc as (l1 & l2 & ->). rewrite map_app, list_sum_app. cbn [map list_sum fold_right]. fold (list_sum (map (fun d => cnt calls (to g d)) l2)). lia.
Qed.
(** So when a fully connected or a bias layer feeds two layers, no update ever succeeds: the second call
    throws, as the first one has used up the errors. *)
Theorem shared_layer_update_refuted : forall g, well_formed g -> proper_outputs g -> no_dead_ends g ->
  exists fuel0, forall fuel needs queue v, fuel0 <= fuel -> node g v -> 2 <= length (outs g v) -> needs v = true -> update_weights g needs fuel queue = None.
Proof.
  intros g W P Hd. destruct (calls_positive g W P Hd) as [fuel0 H]. exists fuel0. intros fuel needs queue v Hfu Nv Hv Hs. destruct (H fuel v Hfu Nv) as (_ & H2 & _).
  unfold update_weights. apply (apply_run_twice _ _ _ v Hs). now apply H2.
Qed.

(** ** Saving and loading *)
Lemma trained_all : forall g, well_formed g -> proper_outputs g -> no_dead_ends g -> exists fuel0, forall fuel v, fuel0 <= fuel -> node g v -> In v (flat_map (apply_calls g fuel) (outputs g)).
Proof.
  intros g (Hnd & Hh & Hn & rank & Hr) [Ho1 Ho2] Hd. destruct (rank_top g rank) as [top Ht]. exists (S top). intros fuel v Hfu Nv.
  assert (Hf : forall o, In o (outputs g) -> rank o < fuel) by (intros o Ho; destruct (Ho2 o Ho) as [No _]; specialize (Ht o No); lia).
  apply (count_occ_In Nat.eq_dec). revert v Nv. apply (down_ind g rank top Hr Ht). intros w Nw IH. rewrite (total_count g rank Hr fuel w Hf Ho1). cbv zeta. destruct (outs g w) as [|c cs] eqn:Eo.
  - replace (existsb (Nat.eqb w) (outputs g)) with true by (symmetry; apply existsb_In, Hd; assumption). cbn. lia.
  - specialize (IH c (or_introl eq_refl)). cbn [map]. change (0 < one (existsb (Nat.eqb w) (outputs g)) + (cnt (flat_map (apply_calls g fuel) (outputs g)) (to g c) + list_sum (map (fun d => cnt (flat_map (apply_calls g fuel) (outputs g)) (to g d)) cs))). lia.
Qed.
(** However a network without cycles and dead ends has been saved, loaded and trained before, saving it
    saves every layer and nothing else, and loading it loads every layer and nothing else. *)
(** Partial, C54: networks without dead ends; with them it is refuted. *)
Theorem every_layer_is_saved_and_loaded_partial : forall g, well_formed g -> proper_outputs g -> no_dead_ends g ->
  exists fuel0, forall fuel actions v, fuel0 <= fuel ->
  let saved := history g fuel actions built in
  (In v (snd (act g fuel Save saved)) <-> node g v) /\ (In v (snd (act g fuel Load saved)) <-> node g v).
Proof.
  intros g W Po Nd. destruct (trained_all g W Po Nd) as [f1 Tr]. destruct W as (Hnd & Hh & Hn & rank & Hr). destruct (rank_top g rank) as [top Ht]. exists (S (f1 + top)). intros fuel actions v Hfu saved.
  assert (Hf : forall v, node g v -> top - rank v < fuel) by (intros; lia).
  assert (Hhd : forall h, In h (heads g) -> node g h) by (intros h H; now left).
  assert (Ld : forall s, closed g (fun _ => False) [] s -> let '(s', l') := load_knowledge g fuel (heads g) (s, []) in (forall u, In u l' -> node g u /\ s' u = true) /\ (forall u, node g u -> In u l')).
  { intros s Hc. pose proof (load_all_ok g rank top Hr Ht fuel (heads g) s [] Hf Hhd) as L. destruct (load_knowledge g fuel (heads g) (s, [])) as [s' l'].
    destruct L as (L1 & _ & L3 & L4); [intros c Cc H N; destruct (Hc c Cc H N) as [G|[]]; now left|intros ? ? []|intros ? []|]. split; [exact L1|]. now apply (up_ind g rank Hr Hn). }
  assert (Inv : closed g (fun _ => False) [] saved).
  { subst saved. assert (C0 : closed g (fun _ => False) [] built) by (intros c Cc H; discriminate). revert C0. generalize built as s. induction actions as [|a actions IH]; intros s Hc; [exact Hc|]. cbn [history]. apply IH. destruct a; cbn [act].
    - pose proof (save_all_ok g rank top Hr Ht fuel (heads g) s Hf Hhd Hc) as L. destruct (save_knowledge g fuel (heads g) s) as [s' l']. apply L.
    - pose proof (Ld s Hc) as L. destruct (load_knowledge g fuel (heads g) (s, [])) as [s' l']. destruct L as [L1 L2]. cbn [fst]. intros c Cc H. destruct (L1 (from g c)) as [_ G]; [now apply L2, Hn|congruence].
    - cbn [fst]. intros c Cc _ _. left. replace (existsb (Nat.eqb (to g c)) (flat_map (apply_calls g fuel) (outputs g))) with true; [reflexivity|]. symmetry. apply existsb_In, Tr; [lia|]. right. now apply ins_ne. }
  split; cbn [act].
  - pose proof (save_all_ok g rank top Hr Ht fuel (heads g) saved Hf Hhd Inv) as L. destruct (save_knowledge g fuel (heads g) saved) as [s' l']. destruct L as (_ & _ & L3 & L4 & L5). cbn [snd]. split; [apply L5|].
    revert v. apply (up_ind g rank Hr Hn); [intros h H; now apply L3|exact L4].
  - pose proof (Ld saved Inv) as L. destruct (load_knowledge g fuel (heads g) (saved, [])) as [s' l']. destruct L as [L1 L2]. cbn [snd]. split; [apply L1|apply L2].
Qed.
(** With a dead end it is false: after a network was loaded and trained, saving it leaves out the layer
    (2) that no output depends on, and the saved knowledge cannot be loaded. *)
Theorem dead_end_saving_refuted : forall fuel, 3 <= fuel -> node dead_end 2 /\
  snd (act dead_end fuel Save (history dead_end fuel [Load; Train] built)) = [0; 1] /\
  snd (act dead_end fuel Load (history dead_end fuel [Load] built)) = [0; 1; 2].
Proof. intros fuel Hf. destruct fuel as [|[|[|fuel]]]; try lia. split; [right; discriminate|]. split; reflexivity. Qed.

(** ** Counting *)
(** The number of parameters is the sum over the layers that can be reached from the inputs, each
    counted once, even if there are cycles. *)
Theorem parameters_are_counted_once : forall g params, exists fuel0, forall fuel l, fuel0 <= fuel -> all_reachable g l -> total_parameters g params fuel = list_sum (map params l).
Proof.
  intros g params. set (U := heads g ++ map (to g) (seq 0 (length (conns g)))). exists (S (length U)). intros fuel l Hfu [Nd Hl].
  pose proof (count_heads_ok g params U) as C. unfold total_parameters. specialize (C) with (fuel := fuel) (hs := heads g) (n := 0) (vis := []).
  destruct (fold_left (fun st h => let '(n, vis) := count g params fuel h (snd st) in (fst st + n, vis)) (heads g) (0, [])) as [n' vis'].
  destruct C as (A1 & A2 & _ & A4 & A5 & A6).
  - intros c Cc. subst U. apply in_or_app. right. apply in_map, in_seq. unfold conn in Cc. lia.
  - constructor.
  - intros ? [].
  - intros h H. apply in_or_app. now left.
  - lia.
  - reflexivity.
  - intros ? ? [].
  - cbn [fst]. rewrite A1. unfold total. assert (Eq : forall v, In v vis' <-> In v l).
    { intros v. rewrite Hl. split.
      - apply (A6 (reachable g)); [intros h; apply reach_head|intros ? []|intros c; apply reach_conn].
      - intros R. induction R as [h H|c Cc R IH]; [now apply A4|]. apply (A5 (from g c)); [exact IH|apply in_outs; now split]. }
    assert (Pm : Permutation.Permutation vis' l) by (apply Permutation.NoDup_Permutation; assumption). apply (Permutation.Permutation_map params) in Pm.
    clear - Pm. induction Pm; cbn; unfold list_sum in *; lia.
Qed.
Theorem reachable_is_node : forall g v, well_formed g -> (reachable g v <-> node g v).
Proof.
  intros g v (Hnd & Hh & Hn & rank & Hr). split.
  - intros R. destruct R as [h H|c Cc _]; [now left|right; now apply ins_ne].
  - revert v. apply (up_ind g rank Hr Hn); [apply reach_head|apply reach_conn].
Qed.

(** ** Examples *)
(** 0 -> 1 -> 2 and 3 -> 2 *)
Definition two_inputs : graph := {| conns := [(0, 1); (1, 2); (3, 2)]; heads := [0; 3]; outputs := [2] |}.
Example two_inputs_ok : well_formed two_inputs /\ proper_outputs two_inputs /\ no_dead_ends two_inputs /\ no_branches two_inputs.
Proof.
  assert (C : forall c, conn two_inputs c -> c = 0 \/ c = 1 \/ c = 2) by (intros c Hc; unfold conn in Hc; cbn in Hc; lia). split; [|split; [|split]].
  - split; [repeat constructor; cbn; intuition lia|]. split; [intros h [<-|[<-|[]]]; reflexivity|]. split.
    + intros c Hc. apply C in Hc. destruct Hc as [-> |[-> | ->]]; cbn; [left; now left|right; discriminate|left; right; now left].
    + exists (fun v => match v with 0 => 0 | 1 => 1 | 2 => 2 | _ => 0 end). intros c Hc. apply C in Hc. destruct Hc as [-> |[-> | ->]]; cbn; lia.
  - split; [repeat constructor; intros []|]. intros o [<-|[]]. split; [right; discriminate|reflexivity].
  - intros v Nv Ov. destruct v as [|[|[|[|v]]]]; try discriminate; [now left|]. exfalso. destruct Nv as [[H|[H|[]]]|H]; try discriminate. apply H. reflexivity.
  - intros v. destruct v as [|[|[|[|v]]]]; cbn; lia.
Qed.
Example two_inputs_update : flat_map (apply_calls two_inputs 3) (outputs two_inputs) = [2; 1; 0; 3].
Proof. reflexivity. Qed.
(** A cycle: 0 -> 1 -> 2 -> 1 *)
Example cycle_count : total_parameters {| conns := [(0, 1); (1, 2); (2, 1)]; heads := [0]; outputs := [] |} (fun v => 10 ^ v) 5 = 111.
Proof. reflexivity. Qed.
Example diamond_saves : snd (act diamond 5 Save (history diamond 5 [Load; Train; Save] built)) = [0; 1; 3; 2; 3; 3] /\ snd (act diamond 5 Load (history diamond 5 [Save; Train] built)) = [0; 1; 3; 2].
Proof. split; reflexivity. Qed.

Print Assumptions every_layer_is_updated_once_partial.
Print Assumptions updates_follow_every_way.
Print Assumptions shared_layer_update_refuted.
Print Assumptions every_layer_is_saved_and_loaded_partial.
Print Assumptions dead_end_saving_refuted.
Print Assumptions parameters_are_counted_once.
Print Assumptions reachable_is_node.
