(** C52: a prediction walks the network. *)
From Coq Require Import List Arith Bool Lia.
From Verif Require Import Outcome Graph_Model Graph_Spec Graph_Forward.
Import ListNotations.

Lemma rank_top : forall g (rank : nat -> nat), exists top, forall v, node g v -> rank v <= top.
Proof.
  intros g rank. exists (list_max (map rank (heads g ++ map (to g) (seq 0 (length (conns g)))))). intros v Nv.
  assert (I : In (rank v) (map rank (heads g ++ map (to g) (seq 0 (length (conns g)))))).
  { apply in_map. apply in_or_app. destruct Nv as [H|H]; [now left|right]. destruct (ins g v) as [|c l] eqn:E; [contradiction|].
    assert (X : In c (ins g v)) by (rewrite E; now left). apply in_ins in X as [Cc <-]. apply in_map. apply in_seq. unfold conn in Cc. lia. }
  pose proof (list_max_le (map rank (heads g ++ map (to g) (seq 0 (length (conns g))))) (list_max (map rank (heads g ++ map (to g) (seq 0 (length (conns g))))))) as [X _].
  rewrite Forall_forall in X. apply X; [reflexivity|exact I].
Qed.
Lemma consume_ok : forall {T} os (last : nat -> option T) val, NoDup os -> (forall o, In o os -> last o = Some (val o)) -> exists last', consume os last = (Ok (map val os), last').
Proof.
  intros T os. induction os as [|o os IH]; intros last val Nd H; [eexists; reflexivity|]. cbn [consume]. rewrite H by now left.
  apply NoDup_cons_iff in Nd as [No Nd]. destruct (IH (set_at last o None) val Nd) as [l' E].
  { intros o' Ho'. rewrite set_at_other; [apply H; now right|]. intros ->. contradiction. }
  rewrite E. eexists. reflexivity.
Qed.
Lemma combine_nth : forall {A B} (l : list A) (m : list B) x y, In (x, y) (combine l m) -> exists i, nth_error l i = Some x /\ nth_error m i = Some y.
Proof.
  intros A B l. induction l as [|a l IH]; intros [|b m] x y H; try destruct H as [].
  - injection H as -> ->. exists 0. now split.
  - destruct (IH m x y H) as [i Hi]. exists (S i). exact Hi.
Qed.
Lemma combine_fst : forall {A B} (l : list A) (m : list B), length m = length l -> map fst (combine l m) = l.
Proof. intros A B l. induction l as [|a l IH]; intros [|b m] H; try discriminate; [reflexivity|]. cbn. f_equal. apply IH. cbn in H. lia. Qed.

(** In a network without cycles, when no layer fails, a prediction gives the values of the outputs,
    computed from this prediction's inputs; every layer is called once, after its predecessors; and
    nothing is left in the network for the next prediction.  (The fuel needed depends on the network
    alone.) *)
(** Partial, C52: missing is a prediction after a failed one, see [failed_prediction_refuted]. *)
Theorem prediction_computes_the_values_partial : forall g, well_formed g -> proper_outputs g ->
  exists fuel0, forall T (layer : nat -> list T -> outcome T) fuel given val st, fuel0 <= fuel -> length given = length (heads g) -> values g layer given val -> idle g (next_input st) ->
  exists st' calls, predict g layer fuel given st = (st', Ok (map val (outputs g))) /\ idle g (next_input st') /\
    called st' = called st ++ calls /\ in_order g calls.
Proof.
  intros g (Hnd & Hh & Hn & rank & Hr) [Ho1 Ho2]. destruct (rank_top g rank) as [top Ht]. exists (S top). intros T layer fuel given val st Hfu Hlen [V1 V2] Hid.
  destruct (heads_ok g layer val rank top (called st) Hr Ht V2 fuel (combine (heads g) given) (fun _ => false) [] st) as (P & M & st' & E & I' & F' & O' & C' & H').
  - intros v Nv. specialize (Ht v Nv). lia.
  - now rewrite combine_fst.
  - intros h x Hin. destruct (combine_nth _ _ _ _ Hin) as (i & E1 & E2). pose proof (nth_error_In _ _ E1) as Hi. split; [now left|]. split; [now apply Hh|]. split; [auto|]. now apply (V1 i).
  - constructor; [intros; discriminate|intros ? ? []|intros; discriminate|intros c Cc _; now apply Hid|constructor|intros ? ? []|intros ? []|intros ? []|now rewrite app_nil_r].
  - intros u _ Iu Cu. unfold complete in Cu. destruct (ins g u); [contradiction|discriminate].
  - intros ? ? [].
  - intros ? ? [].
  - cbn [app] in *. rewrite combine_fst in H' by exact Hlen. pose proof (all_nodes g val rank (called st) Hr Hn P M st' I' F' O' H') as All.
    destruct (consume_ok (outputs g) (lastOutput st') val Ho1) as [last' Ec].
    { intros o Hout. destruct (Ho2 o Hout) as [No Oo]. apply (i_last _ _ _ _ _ _ I'); try assumption. now apply All. }
    exists {| next_input := next_input st'; lastOutput := last'; called := called st' |}, M. split.
    { unfold predict. rewrite Hlen, Nat.eqb_refl. cbn [negb]. rewrite E, Ec. reflexivity. }
    split.
    { intros c Cc. cbn [next_input]. apply (C' (to g c)); [|apply in_ins; now split]. apply All. right. now apply ins_ne. }
    split; [apply (i_called _ _ _ _ _ _ I')|]. split; [apply (i_nodup _ _ _ _ _ _ I')|]. split.
    { intros v. split; [apply (i_node _ _ _ _ _ _ I')|apply All]. }
    { intros c Cc. apply (i_order _ _ _ _ _ _ I'); [exact Cc|]. apply All. right. now apply ins_ne. }
Qed.

(** So each prediction of a series depends on its own inputs only. *)
Theorem predictions_are_independent : forall {T} g (layer : nat -> list T -> outcome T), well_formed g -> proper_outputs g ->
  exists fuel0, forall fuel givens vals, fuel0 <= fuel -> Forall2 (fun given val => length given = length (heads g) /\ values g layer given val) givens vals ->
  snd (predictions g layer fuel givens fresh) = map (fun val => Ok (map val (outputs g))) vals.
Proof.
  intros T g layer Hw Ho. destruct (prediction_computes_the_values_partial g Hw Ho) as [fuel0 H]. exists fuel0. intros fuel givens vals Hfu HF.
  assert (Hid : idle g (next_input (fresh : fstate T))) by (intros c _; reflexivity). revert Hid. generalize (fresh : fstate T) as st.
  induction HF as [|given val givens vals [Hl Hv] HF IH]; intros st Hid; [reflexivity|]. cbn [predictions].
  destruct (H _ layer fuel given val st Hfu Hl Hv Hid) as (st' & calls & E & Hid' & _). rewrite E. specialize (IH st' Hid').
  destruct (predictions g layer fuel givens st') as [st2 rs]. cbn [snd map] in *. now rewrite IH.
Qed.

(** A wrong number of inputs is refused. *)
Theorem wrong_number_of_inputs : forall {T} g (layer : nat -> list T -> outcome T) fuel given st, length given <> length (heads g) -> predict g layer fuel given st = (st, Throw).
Proof. intros T g layer fuel given st H. unfold predict. destruct (Nat.eqb_spec (length given) (length (heads g))); [contradiction|reflexivity]. Qed.

(** ** After a failure (refuted) *)
(** Two inputs, 0 and 1, joined in 2, an output, which fails once.  From then on the prediction for
    [a, b] uses the [b] of the call before: it is made as soon as the first input arrives. *)
Definition join : graph := {| conns := [(0, 2); (1, 2)]; heads := [0; 1]; outputs := [2] |}.
(** A layer that fails when its inputs add to 13. *)
Definition join_layer (v : nat) (l : list nat) : outcome nat :=
  match v with
  | 2 => match l with [a; b] => if a + b =? 13 then Throw else Ok (10 * a + b) | _ => Throw end
  | _ => match l with [x] => Ok x | _ => Throw end
  end.
Theorem failed_prediction_refuted : forall fuel a b, 4 <= fuel -> a + 8 <> 13 -> b < 10 ->
  (* without the failure *)
  snd (predictions join join_layer fuel [[a; b]] fresh) = [if a + b =? 13 then Throw else Ok [10 * a + b]] /\
  (* with it: the result is computed with the 8 of the failed prediction *)
  exists r, snd (predictions join join_layer fuel [[5; 8]; [a; b]] fresh) = [Throw; r] /\ (r = Ok [10 * a + 8]).
Proof.
  intros fuel a b Hfu Ha Hb. destruct fuel as [|[|[|[|fuel]]]]; try lia. split.
  - cbn. destruct (a + b =? 13); reflexivity.
  - eexists. split; [|reflexivity]. cbn. destruct (Nat.eqb_spec (a + 8) 13) as [E|E]; [contradiction|]. cbn. reflexivity.
Qed.

(** ** Example *)
(** 0 -> 1 -> 3, 0 -> 2 -> 3, 0 -> 3: a network with a branch and a skip connection. *)
Definition diamond : graph := {| conns := [(0, 1); (0, 2); (1, 3); (2, 3); (0, 3)]; heads := [0]; outputs := [3] |}.
Example diamond_well_formed : well_formed diamond.
Proof.
  split; [repeat constructor; intros []|]. split; [intros h [<-|[]]; reflexivity|].
  assert (C : forall c, conn diamond c -> c = 0 \/ c = 1 \/ c = 2 \/ c = 3 \/ c = 4) by (intros c Hc; unfold conn in Hc; cbn in Hc; lia).
  split.
  - intros c Hc. apply C in Hc. destruct Hc as [-> |[-> |[-> |[-> | ->]]]]; cbn; try (left; now left); right; discriminate.
  - exists (fun v => v). intros c Hc. apply C in Hc. destruct Hc as [-> |[-> |[-> |[-> | ->]]]]; cbn; lia.
Qed.
Example diamond_outputs : proper_outputs diamond.
Proof. split; [repeat constructor; intros []|]. intros o [<-|[]]. split; [right; discriminate|reflexivity]. Qed.
Definition sum_layer (v : nat) (l : list nat) : outcome nat := Ok (v + fold_right plus 0 l).
Example diamond_values : values diamond sum_layer [10] (fun v => match v with 0 => 10 | 1 => 11 | 2 => 12 | 3 => 36 | _ => 0 end).
Proof.
  split.
  - intros i h x H1 H2. destruct i as [|i]; [injection H1 as <-; injection H2 as <-; reflexivity|]. destruct i; discriminate.
  - intros v Hv. destruct v as [|[|[|[|v]]]]; try reflexivity; exfalso; apply Hv; reflexivity.
Qed.
Example diamond_predicts : snd (predict diamond sum_layer 5 [10] fresh) = Ok [36].
Proof. reflexivity. Qed.

Print Assumptions prediction_computes_the_values_partial.
Print Assumptions predictions_are_independent.
Print Assumptions wrong_number_of_inputs.
Print Assumptions failed_prediction_refuted.
