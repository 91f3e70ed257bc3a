(** C66 and more: the optimizers. *)
From Coq Require Import List Arith Reals Bool Lra Lia Permutation.
From Verif Require Import Optimizer_Model.
Import ListNotations.
Local Open Scope R_scope.

(** ** What is expected *)
(** The gradients a layer was changed with, in order: those of the calls with its id. *)
Fixpoint weight_gradients (id : nat) (events : list event) : list tensor :=
  match events with
  | [] => []
  | Weights k _ g :: r => if Nat.eqb k id then g :: weight_gradients id r else weight_gradients id r
  | _ :: r => weight_gradients id r
  end.
Fixpoint bias_gradients (id : nat) (events : list event) : list tensor :=
  match events with
  | [] => []
  | Bias k _ g :: r => if Nat.eqb k id then g :: bias_gradients id r else bias_gradients id r
  | _ :: r => bias_gradients id r
  end.
(** The sum of the values, each multiplied with [b] once for every value after it. *)
Fixpoint discounted (b : R) (l : list R) : R := match l with [] => 0 | x :: r => x * b ^ length r + discounted b r end.
Definition at_position (i : nat) (l : list tensor) : list R := map (fun g => g i) l.

Lemma discounted_snoc : forall b l x, discounted b (l ++ [x]) = discounted b l * b + x.
Proof. intros b l x. induction l as [|y l IH]; cbn [app discounted]; [cbn; ring|]. rewrite IH, app_length. cbn [length]. rewrite Nat.add_comm. cbn. ring. Qed.
Lemma weight_gradients_snoc : forall id e l, weight_gradients id (l ++ [e]) = weight_gradients id l ++ weight_gradients id [e].
Proof. intros id e l. induction l as [|x l IH]; [reflexivity|]. destruct x; cbn [app weight_gradients]; try assumption. destruct (Nat.eqb id0 id); rewrite IH; reflexivity. Qed.
Lemma bias_gradients_snoc : forall id e l, bias_gradients id (l ++ [e]) = bias_gradients id l ++ bias_gradients id [e].
Proof. intros id e l. induction l as [|x l IH]; [reflexivity|]. destruct x; cbn [app bias_gradients]; try assumption. destruct (Nat.eqb id0 id); rewrite IH; reflexivity. Qed.

Lemma wg_other : forall id e l, weight_gradients id [e] = [] -> weight_gradients id l = weight_gradients id (l ++ [e]).
Proof. intros id e l H. now rewrite weight_gradients_snoc, H, app_nil_r. Qed.
Lemma bg_other : forall id e l, bias_gradients id [e] = [] -> bias_gradients id l = bias_gradients id (l ++ [e]).
Proof. intros id e l H. now rewrite bias_gradients_snoc, H, app_nil_r. Qed.
Lemma find_put_same : forall id x l, find id (put id x l) = Some x.
Proof. intros id x l. induction l as [|[k t] l IH]; cbn; [now rewrite Nat.eqb_refl|]. destruct (Nat.eqb k id) eqn:E; cbn; rewrite E; [reflexivity|exact IH]. Qed.
Lemma find_put_other : forall id id' x l, id' <> id -> find id (put id' x l) = find id l.
Proof.
  intros id id' x l N. induction l as [|[k t] l IH]; cbn; [apply Nat.eqb_neq in N; now rewrite N|]. destruct (Nat.eqb_spec k id') as [->|E]; cbn.
  - apply Nat.eqb_neq in N. now rewrite N.
  - destruct (Nat.eqb k id); [reflexivity|exact IH].
Qed.

(** ** Registration *)
(** The ids given out by Adam and by momentum are all different, for weights and biases alike. *)
Fixpoint ids_given (mean : tensor -> R) (k : kind) (st : state) (events : list event) : list nat :=
  match events with
  | [] => []
  | Register :: r => snd (register k st) :: ids_given mean k (step mean k st Register) r
  | e :: r => ids_given mean k (step mean k st e) r
  end.
Theorem ids_are_different : forall mean k events rate bias_rate, k <> Sgd -> NoDup (ids_given mean k (start rate bias_rate) events).
Proof.
  intros mean k events r br Hk. assert (G : forall events st, NoDup (ids_given mean k st events) /\ forall i, In i (ids_given mean k st events) -> (next_id st <= i)%nat).
  { clear events. intros events. induction events as [|e events IH]; intros st; [split; [constructor|intros ? []]|]. destruct (IH (step mean k st e)) as [A B].
    assert (Nx : next_id (step mean k st e) = match e with Register => S (next_id st) | _ => next_id st end).
    { destruct e; cbn [step]; [destruct k; [contradiction|reflexivity|reflexivity]| | |reflexivity]; unfold change_weights, change_bias; destruct (change_side _ _ _ _ _ _ _); reflexivity. }
    rewrite Nx in B. destruct e; cbn [ids_given]; try (split; [exact A|exact B]). assert (E : snd (register k st) = next_id st) by (destruct k; [contradiction|reflexivity|reflexivity]). rewrite E. split.
    - constructor; [|exact A]. intros H. apply B in H. lia.
    - intros i [<-|H]; [lia|]. apply B in H. lia. }
  apply G.
Qed.
(** Plain gradient descent gives every layer the id 0; it keeps nothing for a layer. *)
(** Partial, C75: gradient descent; the other optimizers are refuted. *)
Theorem sgd_changes_partial : forall mean events rate bias_rate id params gradient i,
  let st := run mean Sgd (start rate bias_rate) events in
  snd (change_weights mean Sgd st id params gradient) i = params i - rate * gradient i /\ snd (change_bias mean Sgd st id params gradient) i = params i - bias_rate * gradient i.
Proof.
  intros mean events r br id p g i st. assert (H : rate (weights st) = r /\ rate (biases st) = br).
  { subst st. assert (G : forall st0, rate (weights st0) = r /\ rate (biases st0) = br -> rate (weights (run mean Sgd st0 events)) = r /\ rate (biases (run mean Sgd st0 events)) = br).
    { induction events as [|e events IH]; intros st0 H; [exact H|]. cbn [run fold_left]. apply IH. destruct e; exact H. }
    apply G. split; reflexivity. }
  destruct H as [H1 H2]. cbn. rewrite H1, H2. split; ring.
Qed.

(** ** Adam *)
Definition adam_inv (s : side) (hist : nat -> list tensor) : Prop :=
  forall id, (find id (m s) = None <-> hist id = []) /\
    forall i, get id (m s) i = 1 / 10 * discounted (9 / 10) (at_position i (hist id)) /\ get id (v s) i = 1 / 1000 * discounted (999 / 1000) (map (fun x => x ^ 2) (at_position i (hist id))).
Lemma get_put_same : forall id x l, get id (put id x l) = x.
Proof. intros. unfold get. now rewrite find_put_same. Qed.
Lemma get_put_other : forall id id' x l, id' <> id -> get id (put id' x l) = get id l.
Proof. intros. unfold get. now rewrite find_put_other. Qed.
Lemma adam_moments : forall mean decay time s hist id p g, adam_inv s hist ->
  let s' := fst (adam_change mean decay time s id p g) in
  adam_inv s' (fun k => if Nat.eqb id k then hist k ++ [g] else hist k) /\
  forall i, snd (adam_change mean decay time s id p g) i = p i - rate s' * get id (m s') i / (sqrt (get id (v s') i) + 2 * epsilon).
Proof.
  intros mean decay time s hist id p g H s'. subst s'. unfold adam_change. cbv zeta. cbn [fst snd m v rate]. set (m0 := match find id (m s) with Some _ => m s | None => put id zero (m s) end). set (v0 := match find id (m s) with Some _ => v s | None => put id zero (v s) end).
  assert (M0 : forall k i, get k m0 i = get k (m s) i /\ get k v0 i = get k (v s) i).
  { intros k i. subst m0 v0. destruct (find id (m s)) eqn:E; [now split|]. destruct (Nat.eq_dec id k) as [->|N]; [|rewrite !get_put_other by exact N; now split].
    rewrite !get_put_same. destruct (H k) as [H1 H2]. apply H1 in E as E'. destruct (H2 i) as [A B]. rewrite A, B, E'. cbn. unfold zero. split; ring. }
  split.
  - intros k. destruct (Nat.eqb_spec id k) as [->|N].
    + split; [cbn [m]; rewrite find_put_same; split; [discriminate|intros E; destruct (hist k); discriminate]|]. intros i. cbn [m v]. rewrite !get_put_same. destruct (M0 k i) as [-> ->]. destruct (H k) as [_ H2]. destruct (H2 i) as [-> ->].
      unfold at_position. rewrite !map_app. cbn [map]. rewrite !discounted_snoc. split; lra.
    + assert (F : find k m0 = find k (m s)) by (subst m0; destruct (find id (m s)); [reflexivity|now apply find_put_other]). cbn [m v]. rewrite find_put_other by exact N. rewrite F. destruct (H k) as [H1 H2]. split; [exact H1|].
      intros i. rewrite !get_put_other by exact N. destruct (M0 k i) as [-> ->]. apply H2.
  - intros i. rewrite !get_put_same. unfold inverse. rewrite Rplus_assoc. replace (epsilon + epsilon) with (2 * epsilon) by ring. unfold Rdiv. ring.
Qed.
Lemma adam_run : forall mean decay events rate bias_rate, let st := run mean (Adam decay) (start rate bias_rate) events in
  adam_inv (weights st) (fun id => weight_gradients id events) /\ adam_inv (biases st) (fun id => bias_gradients id events).
Proof.
  intros mean decay events r br. induction events as [|e events IH] using rev_ind; cbv zeta in *.
  - split; intros id; (split; [split; reflexivity|]); intros i; unfold get; cbn [find m v start weights biases run fold_left weight_gradients bias_gradients at_position map discounted]; unfold zero; split; ring.
  - unfold run in *. rewrite fold_left_app. cbn [fold_left]. set (st := fold_left (step mean (Adam decay)) events (start r br)) in *. destruct IH as [A B].
    assert (Ext : forall s h h', (forall id, h id = h' id) -> adam_inv s h -> adam_inv s h') by (intros s h h' E Hs id; rewrite <- E; apply Hs).
    destruct e as [|id p g|id p g|]; cbn [step].
    + split; [refine (Ext _ _ _ _ A); intros k; apply wg_other; reflexivity|refine (Ext _ _ _ _ B); intros k; apply bg_other; reflexivity].
    + unfold change_weights. cbn [change_side]. pose proof (adam_moments mean decay (time_step st) (weights st) _ id p g A) as [C _]. cbv zeta in C. destruct (adam_change mean decay (time_step st) (weights st) id p g) as [s' p']. cbn [fst weights biases] in *.
      split; [|refine (Ext _ _ _ _ B); intros k; apply bg_other; reflexivity]. refine (Ext _ _ _ _ C). intros k. rewrite weight_gradients_snoc. cbn. destruct (Nat.eqb id k); [reflexivity|now rewrite app_nil_r].
    + unfold change_bias. cbn [change_side]. pose proof (adam_moments mean decay (time_step st) (biases st) _ id p g B) as [C _]. cbv zeta in C. destruct (adam_change mean decay (time_step st) (biases st) id p g) as [s' p']. cbn [fst weights biases] in *.
      split; [refine (Ext _ _ _ _ A); intros k; apply wg_other; reflexivity|]. refine (Ext _ _ _ _ C). intros k. rewrite bias_gradients_snoc. cbn. destruct (Nat.eqb id k); [reflexivity|now rewrite app_nil_r].
    + split; [refine (Ext _ _ _ _ A); intros k; apply wg_other; reflexivity|refine (Ext _ _ _ _ B); intros k; apply bg_other; reflexivity].
Qed.
(** Adam's step: the discounted mean of the layer's own gradients, divided by the root of that of their
    squares plus twice 1e-8 (Adam as published, and as the constructor reads, has it once; the view that inverts adds it again). *)
Definition adam_step (lr : R) (own : list tensor) (i : nat) : R :=
  lr * (1 / 10 * discounted (9 / 10) (at_position i own)) / (sqrt (1 / 1000 * discounted (999 / 1000) (map (fun x => x ^ 2) (at_position i own))) + 2 * epsilon).
Lemma constant_rate : forall mean k events st, match k with Sgdm d | Adam d => d = false | Sgd => True end -> rate (weights (run mean k st events)) = rate (weights st) /\ rate (biases (run mean k st events)) = rate (biases st).
Proof.
  intros mean k events. induction events as [|e events IH]; intros st Hk; [now split|]. cbn [run fold_left]. destruct (IH (step mean k st e) Hk) as [A B]. unfold run in *. rewrite A, B. destruct e; cbn [step].
  - destruct k; split; reflexivity.
  - destruct k; subst; split; reflexivity.
  - destruct k; subst; split; reflexivity.
  - split; reflexivity.
Qed.
(** Whatever happened before to this and other layers, Adam changes the parameters of a layer by a step
    that depends on that layer's gradients alone. *)
Theorem adam_state_is_per_layer : forall mean events rate0 bias_rate id params gradient i,
  let st := run mean (Adam false) (start rate0 bias_rate) events in
  snd (change_weights mean (Adam false) st id params gradient) i = params i - adam_step rate0 (weight_gradients id events ++ [gradient]) i /\
  snd (change_bias mean (Adam false) st id params gradient) i = params i - adam_step bias_rate (bias_gradients id events ++ [gradient]) i.
Proof.
  intros mean events r br id p g i st. destruct (adam_run mean false events r br) as [A B]. fold st in A, B. destruct (constant_rate mean (Adam false) events (start r br) eq_refl) as [R1 R2]. fold st in R1, R2. unfold change_weights, change_bias. cbn [change_side]. split.
  - destruct (adam_moments mean false (time_step st) (weights st) _ id p g A) as [C D]. cbv zeta in *. assert (Rt : rate (fst (adam_change mean false (time_step st) (weights st) id p g)) = r) by exact R1.
    destruct (adam_change mean false (time_step st) (weights st) id p g) as [s' p']. cbn [fst snd] in *. rewrite D. unfold adam_step. rewrite Rt. destruct (C id) as [_ C2]. destruct (C2 i) as [C3 C4]. rewrite C3, C4, Nat.eqb_refl. reflexivity.
  - destruct (adam_moments mean false (time_step st) (biases st) _ id p g B) as [C D]. cbv zeta in *. assert (Rt : rate (fst (adam_change mean false (time_step st) (biases st) id p g)) = br) by exact R2.
    destruct (adam_change mean false (time_step st) (biases st) id p g) as [s' p']. cbn [fst snd] in *. rewrite D. unfold adam_step. rewrite Rt. destruct (C id) as [_ C2]. destruct (C2 i) as [C3 C4]. rewrite C3, C4, Nat.eqb_refl. reflexivity.
Qed.

(** ** Momentum *)
Definition sgdm_inv (r : R) (s : side) (hist : nat -> list tensor) : Prop := forall id i, get id (m s) i = r * discounted (9 / 10) (at_position i (hist id)).
Lemma sgdm_moments : forall mean time s hist id p g, sgdm_inv (rate s) s hist ->
  let s' := fst (sgdm_change mean false time s id p g) in
  rate s' = rate s /\ sgdm_inv (rate s) s' (fun k => if Nat.eqb id k then hist k ++ [g] else hist k) /\
  forall i, snd (sgdm_change mean false time s id p g) i = p i - get id (m s') i.
Proof.
  intros mean time s hist id p g H s'. subst s'. unfold sgdm_change. cbv zeta. cbn [fst snd m v rate andb]. set (m0 := initialized id (m s)).
  assert (M0 : forall k i, get k m0 i = get k (m s) i).
  { intros k i. subst m0. unfold initialized. destruct (find id (m s)) eqn:E; [reflexivity|]. destruct (Nat.eq_dec id k) as [->|N]; [|now rewrite get_put_other]. rewrite get_put_same. unfold get. now rewrite E. }
  split; [reflexivity|]. split.
  - intros k i. cbn [m]. destruct (Nat.eqb_spec id k) as [->|N].
    + rewrite get_put_same, M0, H. unfold at_position. rewrite map_app. cbn [map]. rewrite discounted_snoc. ring.
    + rewrite get_put_other by exact N. now rewrite M0, H.
  - intros i. now rewrite get_put_same.
Qed.
Lemma sgdm_run : forall mean events r br, let st := run mean (Sgdm false) (start r br) events in
  sgdm_inv r (weights st) (fun id => weight_gradients id events) /\ sgdm_inv br (biases st) (fun id => bias_gradients id events) /\ rate (weights st) = r /\ rate (biases st) = br.
Proof.
  intros mean events r br st. destruct (constant_rate mean (Sgdm false) events (start r br) eq_refl) as [R1 R2]. fold st in R1, R2. cbn [start weights biases rate] in R1, R2. enough (G : sgdm_inv r (weights st) (fun id => weight_gradients id events) /\ sgdm_inv br (biases st) (fun id => bias_gradients id events)) by tauto.
  clear R1 R2. subst st. induction events as [|e events IH] using rev_ind.
  - split; intros id i; unfold get; cbn [find m start weights biases run fold_left weight_gradients bias_gradients at_position map discounted]; unfold zero; ring.
  - destruct (constant_rate mean (Sgdm false) events (start r br) eq_refl) as [R1 R2]. cbn [start weights biases rate] in R1, R2. unfold run in *. rewrite fold_left_app. cbn [fold_left]. set (st := fold_left (step mean (Sgdm false)) events (start r br)) in *. destruct IH as [A B].
    assert (Ext : forall q s h h', (forall id, h id = h' id) -> sgdm_inv q s h -> sgdm_inv q s h') by (intros q s h h' E Hs id; rewrite <- E; apply Hs).
    destruct e as [|id p g|id p g|]; cbn [step].
    + split; [refine (Ext _ _ _ _ _ A); intros k; apply wg_other; reflexivity|refine (Ext _ _ _ _ _ B); intros k; apply bg_other; reflexivity].
    + unfold change_weights. cbn [change_side]. rewrite <- R1 in A at 1. pose proof (sgdm_moments mean (time_step st) (weights st) _ id p g A) as (C0 & C & _). cbv zeta in *. destruct (sgdm_change mean false (time_step st) (weights st) id p g) as [s' p']. cbn [fst weights biases] in *. rewrite R1 in C at 1.
      split; [|refine (Ext _ _ _ _ _ B); intros k; apply bg_other; reflexivity]. refine (Ext _ _ _ _ _ C). intros k. rewrite weight_gradients_snoc. cbn. destruct (Nat.eqb id k); [reflexivity|now rewrite app_nil_r].
    + unfold change_bias. cbn [change_side]. rewrite <- R2 in B at 1. pose proof (sgdm_moments mean (time_step st) (biases st) _ id p g B) as (C0 & C & _). cbv zeta in *. destruct (sgdm_change mean false (time_step st) (biases st) id p g) as [s' p']. cbn [fst weights biases] in *. rewrite R2 in C at 1.
      split; [refine (Ext _ _ _ _ _ A); intros k; apply wg_other; reflexivity|]. refine (Ext _ _ _ _ _ C). intros k. rewrite bias_gradients_snoc. cbn. destruct (Nat.eqb id k); [reflexivity|now rewrite app_nil_r].
    + split; [refine (Ext _ _ _ _ _ A); intros k; apply wg_other; reflexivity|refine (Ext _ _ _ _ _ B); intros k; apply bg_other; reflexivity].
Qed.
(** The same for momentum: the step is the learning rate times the discounted sum of the layer's own
    gradients. *)
Definition momentum_step (lr : R) (own : list tensor) (i : nat) : R := lr * discounted (9 / 10) (at_position i own).
(** Partial, C66: layers with their own id; the filters of a convolution share one. *)
Theorem momentum_state_is_per_layer_partial : forall mean events rate0 bias_rate id params gradient i,
  let st := run mean (Sgdm false) (start rate0 bias_rate) events in
  snd (change_weights mean (Sgdm false) st id params gradient) i = params i - momentum_step rate0 (weight_gradients id events ++ [gradient]) i /\
  snd (change_bias mean (Sgdm false) st id params gradient) i = params i - momentum_step bias_rate (bias_gradients id events ++ [gradient]) i.
Proof.
  intros mean events r br id p g i st. destruct (sgdm_run mean events r br) as (A & B & R1 & R2). fold st in A, B, R1, R2. unfold change_weights, change_bias. cbn [change_side]. split.
  - rewrite <- R1 in A at 1. destruct (sgdm_moments mean (time_step st) (weights st) _ id p g A) as (_ & C & D). cbv zeta in *. destruct (sgdm_change mean false (time_step st) (weights st) id p g) as [s' p']. cbn [fst snd] in *. rewrite D, C, Nat.eqb_refl, R1. reflexivity.
  - rewrite <- R2 in B at 1. destruct (sgdm_moments mean (time_step st) (biases st) _ id p g B) as (_ & C & D). cbv zeta in *. destruct (sgdm_change mean false (time_step st) (biases st) id p g) as [s' p']. cbn [fst snd] in *. rewrite D, C, Nat.eqb_refl, R2. reflexivity.
Qed.

(** ** The filters of a convolution (refuted) *)
(** They share one id: the second filter is changed with the first one's gradient. *)
Theorem filters_share_momentum_refuted : forall mean rate0 bias_rate id w1 w2 g1 g2 i,
  exists w1' w2', snd (convolution_apply mean (Sgdm false) (start rate0 bias_rate) id [w1; w2] [[g1; g2]]) = [w1'; w2'] /\
    w1' i = w1 i - rate0 * g1 i /\ w2' i = w2 i - rate0 * (9 / 10 * g1 i + g2 i).
Proof.
  intros mean r br id w1 w2 g1 g2 i. cbn [convolution_apply change_filters].
  pose proof (momentum_state_is_per_layer_partial mean [] r br id w1 g1 i) as [A _]. pose proof (momentum_state_is_per_layer_partial mean [Weights id w1 g1] r br id w2 g2 i) as [B _]. cbv zeta in *. cbn [run fold_left step] in A, B.
  destruct (change_weights mean (Sgdm false) (start r br) id w1 g1) as [st1 w1'] eqn:E1. cbn [fst] in B. destruct (change_weights mean (Sgdm false) st1 id w2 g2) as [st2 w2'] eqn:E2. cbn [snd] in *.
  exists w1', w2'. split; [reflexivity|]. split.
  - rewrite A. unfold momentum_step, at_position. cbn. lra.
  - rewrite B. unfold momentum_step, at_position. cbn [weight_gradients]. rewrite Nat.eqb_refl. cbn. lra.
Qed.
(** The records of a batch are not averaged either: with plain gradient descent a batch of [n] records with
    the same gradient changes a filter [n] times. *)
Theorem batch_is_not_averaged_refuted : forall mean rate0 bias_rate id w g n i, exists w', snd (convolution_apply mean Sgd (start rate0 bias_rate) id [w] (repeat [g] n)) = [w'] /\ w' i = w i - INR n * (rate0 * g i).
Proof.
  intros mean r br id w g n i. revert w. induction n as [|n IH]; intros w; [exists w; split; [reflexivity|cbn; ring]|]. cbn [repeat convolution_apply change_filters change_weights change_side sgd_change].
  destruct (IH (fun i => w i - g i * r)) as (w' & E & F). exists w'. split; [exact E|]. rewrite F, S_INR. ring.
Qed.

(** ** The size of Adam's first step (refuted) *)
(** Adam with its usual correction for the start makes a first step of about the learning rate; here it is
    more than three times as long, whatever the gradient. *)
Theorem adam_first_step_refuted : forall mean rate0 bias_rate id w g i, 0 < rate0 -> 1 / 50000 <= Rabs (g i) ->
  3 * rate0 < Rabs (snd (change_weights mean (Adam false) (start rate0 bias_rate) id w g) i - w i).
Proof.
  intros mean r br id w g i Hr Hg. pose proof (adam_state_is_per_layer mean [] r br id w g i) as [A _]. cbv zeta in A. cbn [run fold_left weight_gradients app] in A. rewrite A. unfold adam_step, at_position. cbn [map discounted length pow].
  replace (1 / 1000 * (g i * (g i * 1) * 1 + 0)) with (1 / 1000 * (g i * g i)) by ring. rewrite sqrt_mult by (try lra; nra). change (sqrt (g i * g i)) with (sqrt (Rsqr (g i))). rewrite sqrt_Rsqr_abs.
  assert (Q : 0 < sqrt (1 / 1000) <= 32 / 1000).
  { split; [apply sqrt_lt_R0; lra|]. apply Rsqr_incr_0_var; [|lra]. rewrite Rsqr_sqrt by lra. unfold Rsqr. lra. }
  assert (D : 0 < sqrt (1 / 1000) * Rabs (g i) + 2 * epsilon) by (unfold epsilon; nra).
  replace (w i - r * (1 / 10 * (g i * 1 + 0)) / (sqrt (1 / 1000) * Rabs (g i) + 2 * epsilon) - w i) with (- (r * (1 / 10) * g i / (sqrt (1 / 1000) * Rabs (g i) + 2 * epsilon))) by (field; lra).
  set (den := sqrt (1 / 1000) * Rabs (g i) + 2 * epsilon) in *. replace (r * (1 / 10) * g i / den) with (r / (10 * den) * g i) by (field; lra).
  rewrite Rabs_Ropp, Rabs_mult. rewrite (Rabs_pos_eq (r / (10 * den))) by (apply Rlt_le, Rdiv_lt_0_compat; lra).
  apply (Rmult_lt_reg_r (10 * den)); [lra|]. replace (r / (10 * den) * Rabs (g i) * (10 * den)) with (r * Rabs (g i)) by (field; lra).
  assert (K : 30 * den < Rabs (g i)) by (subst den; unfold epsilon; nra). nra.
Qed.

(** ** No step of Adam is long *)
Lemma moments_bound : forall l, (1 / 10 * discounted (9 / 10) l) ^ 2 <= 53 * (1 / 1000 * discounted (999 / 1000) (map (fun x => x ^ 2) l)).
Proof.
  intros l. induction l as [|x l IH] using rev_ind; [cbn; lra|]. rewrite map_app. cbn [map]. rewrite !discounted_snoc. set (a := discounted (9 / 10) l) in *. set (b := discounted (999 / 1000) _) in *. clearbody a b.
  assert (Q : 0 <= (a * (9 / 10) * (1 / 10) * (7 / 30) - x * (1 / 10)) ^ 2) by apply pow2_ge_0. nra.
Qed.
(** Whatever the gradients were, now and before, a step of Adam is at most 7.3 times the learning rate. *)
Theorem adam_step_is_bounded : forall lr own i, 0 <= lr -> Rabs (adam_step lr own i) <= 73 / 10 * lr.
Proof.
  intros lr own i H. unfold adam_step. pose proof (moments_bound (at_position i own)) as B. set (a := 1 / 10 * discounted (9 / 10) _) in *. set (b := 1 / 1000 * discounted _ _) in *. clearbody a b.
  assert (Hb : 0 <= b) by (pose proof (pow2_ge_0 a); lra). assert (E : 0 < epsilon) by (unfold epsilon; lra). pose proof (sqrt_pos b) as P. pose proof (sqrt_sqrt b Hb) as Q. set (d := sqrt b) in *. clearbody d.
  assert (A : Rabs a <= 73 / 10 * d).
  { apply Rsqr_incr_0_var; [|lra]. rewrite <- Rsqr_abs. unfold Rsqr. nra. }
  unfold Rdiv at 1. rewrite !Rabs_mult, (Rabs_pos_eq lr) by exact H. rewrite (Rabs_pos_eq (/ _)) by (apply Rlt_le, Rinv_0_lt_compat; lra).
  apply (Rmult_le_reg_r (d + 2 * epsilon)); [lra|]. rewrite Rmult_assoc, Rinv_l by lra. nra.
Qed.
(** With the same gradient every time the step comes close to it: more than three times the learning rate at the first step already. *)
Example ex_adam_long_step : 3 < adam_step 1 [fun _ => 1] 0 <= 73 / 10.
Proof.
  split; [|apply Rle_trans with (1 := Rle_abs _); replace (73 / 10) with (73 / 10 * 1) by ring; apply adam_step_is_bounded; lra].
  unfold adam_step, at_position, epsilon. cbn [map discounted length pow]. replace (1 / 1000 * (1 * (1 * 1) * 1 + 0)) with (1 / 1000) by ring.
  assert (Q : 0 < sqrt (1 / 1000) <= 32 / 1000).
  { split; [apply sqrt_lt_R0; lra|]. apply Rsqr_incr_0_var; [|lra]. rewrite Rsqr_sqrt by lra. unfold Rsqr. lra. }
  set (d := sqrt (1 / 1000)) in *. clearbody d. apply (Rmult_lt_reg_r (d + 2 * (1 / 100000000))); [lra|]. unfold Rdiv at 2. rewrite Rmult_assoc, Rinv_l by lra. lra.
Qed.

(** ** The adjusted learning rate *)
Lemma clamp_range : forall x, smallest <= clamp x <= largest.
Proof. intros x. unfold clamp, smallest, largest. unfold Rmin, Rmax. destruct (Rle_dec (1 / 100000) x); destruct (Rle_dec _ _); lra. Qed.
Lemma change_rate : forall mean k time s id p g, rate (fst (change_side mean k time s id p g)) = rate s \/ smallest <= rate (fst (change_side mean k time s id p g)) <= largest.
Proof.
  intros mean k time s id p g. destruct k as [|d|d]; cbn [change_side]; [now left| |]; unfold sgdm_change, adam_change; cbv zeta; cbn [fst rate]; destruct (d && (last s <? time)%nat); try (now left); right; apply clamp_range.
Qed.
(** Whatever happens, the learning rates are those the optimizer was made with, or between 0.00001 and
    0.1. *)
Theorem rates_stay_in_range : forall mean k events rate0 bias_rate, let st := run mean k (start rate0 bias_rate) events in
  (rate (weights st) = rate0 \/ smallest <= rate (weights st) <= largest) /\ (rate (biases st) = bias_rate \/ smallest <= rate (biases st) <= largest).
Proof.
  intros mean k events r br. induction events as [|e events IH] using rev_ind; cbv zeta in *; [split; now left|]. unfold run in *. rewrite fold_left_app. cbn [fold_left]. set (st := fold_left (step mean k) events (start r br)) in *. destruct e as [|id p g|id p g|]; cbn [step].
  - destruct k; exact IH.
  - unfold change_weights. pose proof (change_rate mean k (time_step st) (weights st) id p g) as C. destruct (change_side mean k (time_step st) (weights st) id p g) as [s' p']. cbn [fst weights biases] in *. split; [|apply IH]. destruct C as [C|C]; [rewrite C; apply IH|now right].
  - unfold change_bias. pose proof (change_rate mean k (time_step st) (biases st) id p g) as C. destruct (change_side mean k (time_step st) (biases st) id p g) as [s' p']. cbn [fst weights biases] in *. split; [apply IH|]. destruct C as [C|C]; [rewrite C; apply IH|now right].
  - exact IH.
Qed.
(** "Decaying" momentum does not decay the learning rate: with the same positive average momentum it
    grows from epoch to epoch. *)
Lemma pow_strict : forall b n k, 0 < b < 1 -> (n < k)%nat -> b ^ k < b ^ n.
Proof.
  intros b n k Hb Hn. induction Hn as [|k Hn IH].
  - cbn. assert (0 < b ^ n) by (apply pow_lt; lra). nra.
  - cbn. assert (0 < b ^ k) by (apply pow_lt; lra). nra.
Qed.
Theorem decaying_rate_grows_refuted : forall t1 t2 a, (2 <= t1 < t2)%nat -> 1 / 10 <= a -> demon t1 a (a * a) < demon t2 a (a * a).
Proof.
  intros t1 t2 a Ht Ha. unfold demon. cbv zeta.
  assert (C : forall t, (2 <= t)%nat -> clamp (1 / (1 - (9 / 10) ^ t)) = 1 / 10).
  { intros t Ht'. assert (P : 0 < (9 / 10) ^ t < 1) by (split; [apply pow_lt; lra|replace 1 with ((9 / 10) ^ 0) by reflexivity; apply pow_strict; [lra|lia]]).
    assert (Q : 1 <= 1 / (1 - (9 / 10) ^ t)) by (apply (Rmult_le_reg_r (1 - (9 / 10) ^ t)); [lra|]; unfold Rdiv; rewrite Rmult_assoc, Rinv_l; lra).
    unfold clamp, largest, smallest, Rmin, Rmax. destruct (Rle_dec (1 / 100000) (1 / (1 - (9 / 10) ^ t))); destruct (Rle_dec _ _); lra. }
  rewrite !C by lia. set (x1 := 1 - (999 / 1000) ^ t1). set (x2 := 1 - (999 / 1000) ^ t2).
  assert (X : 1 / 1000 < x1 < x2 /\ x2 < 1).
  { subst x1 x2. assert (P1 : (999 / 1000) ^ t2 < (999 / 1000) ^ t1) by (apply pow_strict; [lra|lia]). assert (P2 : 0 < (999 / 1000) ^ t2) by (apply pow_lt; lra). assert (P3 : (999 / 1000) ^ t1 < (999 / 1000) ^ 1) by (apply pow_strict; [lra|lia]). cbn in P3. lra. }
  clearbody x1 x2. destruct X as [X X2].
  assert (S : forall x, 0 < x -> sqrt (a * a * (1 / x)) = a * (/ sqrt x)).
  { intros x Hx. rewrite sqrt_mult by (try nra; apply Rlt_le; unfold Rdiv; rewrite Rmult_1_l; now apply Rinv_0_lt_compat). rewrite sqrt_square by lra. f_equal. unfold Rdiv. rewrite Rmult_1_l. now rewrite sqrt_inv. }
  rewrite !S by lra. set (y1 := sqrt x1). set (y2 := sqrt x2).
  assert (Y : 1 / 100 < y1 /\ y1 < y2 /\ y2 < 1).
  { subst y1 y2. repeat split.
    - rewrite <- (sqrt_square (1 / 100)) by lra. apply sqrt_lt_1; lra.
    - apply sqrt_lt_1; lra.
    - rewrite <- sqrt_1. apply sqrt_lt_1; lra. }
  clearbody y1 y2. destruct Y as (Y1 & Y2 & Y3).
  assert (F : forall y, 0 < y -> a * (1 / 10) / (a * / y + epsilon) = a * y / (10 * (a + epsilon * y))).
  { intros y Hy. unfold epsilon. field. repeat split; nra. }
  rewrite !F by lra. set (f := fun y => a * y / (10 * (a + epsilon * y))).
  change (clamp (f y1) < clamp (f y2)).
  assert (Pos : forall y, 0 < y -> 0 < 10 * (a + epsilon * y)) by (intros y Hy; unfold epsilon; nra).
  assert (M : f y1 < f y2).
  { unfold f. assert (Q1 := Pos y1 ltac:(lra)). assert (Q2 := Pos y2 ltac:(lra)). assert (K : a * y1 * (10 * (a + epsilon * y2)) < a * y2 * (10 * (a + epsilon * y1))) by (assert (0 < a * a * (y2 - y1)) by (apply Rmult_lt_0_compat; [nra|lra]); ring_simplify in H; ring_simplify; lra).
    set (d1 := 10 * (a + epsilon * y1)) in *. set (d2 := 10 * (a + epsilon * y2)) in *. clearbody d1 d2. apply (Rmult_lt_reg_r (d1 * d2)); [nra|]. replace (a * y1 / d1 * (d1 * d2)) with (a * y1 * d2) by (field; lra). replace (a * y2 / d2 * (d1 * d2)) with (a * y2 * d1) by (field; lra). exact K. }
  assert (L : smallest < f y1).
  { unfold f, smallest. assert (Q := Pos y1 ltac:(lra)). apply (Rmult_lt_reg_r (10 * (a + epsilon * y1))); [exact Q|]. replace (a * y1 / (10 * (a + epsilon * y1)) * (10 * (a + epsilon * y1))) with (a * y1) by (field; lra). assert (a * (1 / 100) < a * y1) by nra. unfold epsilon. lra. }
  assert (U : f y2 < largest).
  { unfold f, largest. assert (Q := Pos y2 ltac:(lra)). apply (Rmult_lt_reg_r (10 * (a + epsilon * y2))); [exact Q|]. replace (a * y2 / (10 * (a + epsilon * y2)) * (10 * (a + epsilon * y2))) with (a * y2) by (field; lra). assert (a * y2 < a * 1) by nra. unfold epsilon. lra. }
  clearbody f. unfold clamp, Rmin, Rmax. destruct (Rle_dec smallest (f y1)); destruct (Rle_dec smallest (f y2)); repeat (destruct (Rle_dec _ _)); lra.
Qed.

(** ** Examples *)
Example two_layers : forall mean i, let events := [Register; Register; Weights 0 zero (fun _ => 1); Weights 1 zero (fun _ => 100); Weights 0 zero (fun _ => 2)] in
  ids_given mean (Sgdm false) (start 1 1) events = [0%nat; 1%nat] /\ weight_gradients 0 events = [(fun _ => 1); (fun _ => 2)] /\
  snd (change_weights mean (Sgdm false) (run mean (Sgdm false) (start 1 1) events) 0 (fun _ => 10) (fun _ => 4)) i = 10 - (81 / 100 * 1 + 9 / 10 * 2 + 4).
Proof.
  intros mean i events. split; [reflexivity|]. split; [reflexivity|]. pose proof (momentum_state_is_per_layer_partial mean events 1 1 0 (fun _ => 10) (fun _ => 4) i) as [A _]. cbv zeta in A. rewrite A. unfold momentum_step, at_position. subst events. cbn. lra.
Qed.

Print Assumptions ids_are_different.
Print Assumptions sgd_changes_partial.
Print Assumptions adam_state_is_per_layer.
Print Assumptions momentum_state_is_per_layer_partial.
Print Assumptions filters_share_momentum_refuted.
Print Assumptions batch_is_not_averaged_refuted.
Print Assumptions adam_first_step_refuted.
Print Assumptions rates_stay_in_range.
Print Assumptions decaying_rate_grows_refuted.
Print Assumptions adam_step_is_bounded.
