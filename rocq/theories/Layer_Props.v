(** C76-C79: the layers: what goes forward, the errors that go back, and the changes of the parameters. *)
From Coq Require Import List Arith Bool Reals Lia Lra.
From Verif Require Import Outcome Tensor_Model Tensor_Spec Views_Proofs Algebra_Proofs MatMul_Proofs Reduce_Model Reduce_Spec Reduce_Proofs Activation_Model Activation_Proofs Layer_Model Layer_Spec Layer_Proofs.
Import ListNotations.
Local Open Scope R_scope.

(** ** C76 Errors are derivatives *)
(** The error a fully connected layer hands back is the derivative of (error . output) by its input: the
    output for the input moved by [h] differs from that for the input by exactly as much. *)
Theorem fc_input_gradient : forall (s : fc) (x y e : T) n I O K (w f h ep : fn),
  lastInputs s = [] -> is_tensor (fc_weights s) I O K w -> is_tensor x n I K f -> is_tensor y n I K (fun r c k => f r c k + h r c k) -> is_tensor e n O K ep ->
  exists s1 ox p s2 oy q s3 back b, fc_forward s [x] true = Ok (s1, ox) /\ fc_forward s [y] false = Ok (s2, oy) /\ fc_backward s1 e = Ok (s3, back) /\
    is_tensor ox n O K p /\ is_tensor oy n O K q /\ is_tensor back n I K b /\ s2 = s /\ fc_weights s3 = fc_weights s /\
    dot n O K ep q - dot n O K ep p = dot n I K b h.
Proof.
  intros s x y e n I O K w f h ep Hl Hw Hx Hy He. destruct (fc_record s x e n I O K w f ep Hl Hw Hx He) as (s1 & ox & back & we & E1 & P & E2 & B & _).
  destruct (multiply_element rops y (fc_weights s) n I O K _ w Hy Hw) as (oy & Ey & Q).
  exists s1, ox. eexists. exists s, oy. eexists. eexists. exists back. eexists. split; [exact E1|]. split. { unfold fc_forward. rewrite Ey. reflexivity. }
  split; [exact E2|]. split; [exact P|]. split; [exact Q|]. split; [exact B|]. split; [reflexivity|]. split; [reflexivity|]. cbv beta.
  rewrite <- dot_sub_r, <- dot_product_input. apply dot_ext. intros r c k _ _ _. split; [reflexivity|]. rewrite <- SumR_sub. apply SumR_ext. intros i _. cbn [mul rops]. ring.
Qed.

(** What it queues for its weights is the derivative by the weights, plus, with regularization, that of half
    the strength times the sum of their squares. *)
Theorem fc_weight_gradient : forall (s : fc) (x e : T) (moved : T) n I O K (w d f ep : fn),
  lastInputs s = [] -> is_tensor (fc_weights s) I O K w -> is_tensor moved I O K (fun i c k => w i c k + d i c k) -> is_tensor x n I K f -> is_tensor e n O K ep ->
  exists s1 ox p s2 oy q s3 back we g, fc_forward s [x] true = Ok (s1, ox) /\ fc_backward s1 e = Ok (s3, back) /\
    fc_forward {| fc_weights := moved; lastInputs := []; weights_errors := []; l2 := l2 s |} [x] false = Ok (s2, oy) /\
    is_tensor ox n O K p /\ is_tensor oy n O K q /\ weights_errors s3 = weights_errors s ++ [we] /\ is_tensor we I O K g /\
    dot n O K ep q - dot n O K ep p + strength_of (l2 s) * dot I O K w d = dot I O K g d.
Proof.
  intros s x e moved n I O K w d f ep Hl Hw Hm Hx He. destruct (fc_record s x e n I O K w f ep Hl Hw Hx He) as (s1 & ox & back & we & E1 & P & E2 & B & G).
  destruct (multiply_element rops x moved n I O K f _ Hx Hm) as (oy & Ey & Q).
  exists s1, ox. eexists. eexists. exists oy. eexists. eexists. exists back, we. eexists. split; [exact E1|]. split; [exact E2|].
  split. { unfold fc_forward. cbn [fc_weights]. rewrite Ey. reflexivity. }
  split; [exact P|]. split; [exact Q|]. split; [reflexivity|]. split; [exact G|]. cbv beta.
  rewrite <- dot_sub_r. rewrite dot_add_l, dot_scale_l. f_equal. rewrite <- dot_product_weights. apply dot_ext. intros r c k _ _ _. split; [reflexivity|].
  rewrite <- SumR_sub. apply SumR_ext. intros i _. cbn [mul rops]. ring.
Qed.

(** The bias layer adds the bias, and hands the error back and queues it, unchanged. *)
Theorem bias_gradient : forall (s : bias) (x e : T) n m K (b f : fn), is_tensor (bias_values s) n m K b -> is_tensor x n m K f ->
  exists u, bias_forward s [x] = Ok u /\ is_tensor u n m K (fun r c k => f r c k + b r c k) /\
    snd (bias_backward s e) = e /\ bias_values (fst (bias_backward s e)) = bias_values s /\ bias_errors (fst (bias_backward s e)) = bias_errors s ++ [e].
Proof.
  intros s x e n m K b f Hb Hx. destruct (pointwise_element Rplus x (bias_values s) n m K f b Hx Hb) as (u & E & H). exists u. split; [exact E|]. split; [exact H|]. repeat split.
Qed.

(** The concatenation puts its inputs beside each other, in order; the errors it hands back have the shapes
    of the inputs and are the derivatives of (error . output) by each of them. *)
Theorem concat_gradient : forall n K (parts : list (nat * fn)) (ts : list T) (e : T) (ep : fn), (2 <= length parts)%nat -> Forall (fun p => (0 < fst p)%nat) parts ->
  Forall2 (fun t p => is_tensor t n (fst p) K (snd p)) ts parts -> is_tensor e n (list_sum (map fst parts)) K ep ->
  exists u g bs errs, concat_forward ts = Ok u /\ is_tensor u n (list_sum (map fst parts)) K g /\
    (forall l w f l' r c k, parts = l ++ (w, f) :: l' -> (c < w)%nat -> g r (list_sum (map fst l) + c)%nat k = f r c k) /\
    concat_backward (map (fun p => (n, fst p, K)) parts) 0 e = Ok bs /\
    Forall2 (fun b q => is_tensor b n (fst q) K (snd q)) bs errs /\ map fst errs = map fst parts /\
    dot n (list_sum (map fst parts)) K ep g = total (fun p => dot n (fst (fst p)) K (snd (fst p)) (snd (snd p))) (combine errs parts).
Proof.
  intros n K parts ts e ep Hl Hp Ht He. destruct (concat_forward_ok n K parts ts Hl Ht) as (u & E & H).
  destruct (concat_backward_ok n K parts 0 e _ ep He (le_n _) Hp) as (bs & errs & Eb & B & C & D).
  exists u, (beside parts), bs, errs. split; [exact E|]. split; [exact H|].
  split. { clear. intros l w f l' r c k -> Hc. induction l as [|[w1 f1] l IH].
    - cbn [app beside map list_sum fold_right]. rewrite Nat.add_0_l. destruct (Nat.ltb_spec c w); [reflexivity|lia].
    - cbn [app beside map fst]. change (list_sum (w1 :: map fst l)) with (w1 + list_sum (map fst l))%nat. destruct (Nat.ltb_spec (w1 + list_sum (map fst l) + c) w1); [lia|].
      replace (w1 + list_sum (map fst l) + c - w1)%nat with (list_sum (map fst l) + c)%nat by lia. exact IH. }
  split; [exact Eb|]. split; [exact B|]. split; [exact C|]. rewrite <- dot_beside by exact C. unfold width. apply dot_ext. intros r c k Hr Hc Hk. split; [|reflexivity]. now rewrite D.
Qed.
(** Fewer than two inputs, or shapes that do not fit, are refused. *)
Theorem concat_refuses : forall shapes, concat_accepts shapes = Ok tt <-> (2 <= length shapes)%nat /\ exists r k, forall s, In s shapes -> fst (fst s) = r /\ snd s = k.
Proof.
  intros shapes. split.
  - destruct shapes as [|[[r c] k] l]; [discriminate|]. cbn [concat_accepts]. destruct (Nat.ltb_spec (length ((r, c, k) :: l)) 2); [discriminate|].
    destruct (forallb _ _) eqn:F; [|discriminate]. intros _. split; [lia|]. exists r, k. rewrite forallb_forall in F. intros [[r' c'] k'] Hs. apply F in Hs. cbn [fst snd]. apply andb_true_iff in Hs. rewrite !Nat.eqb_eq in Hs. exact Hs.
  - intros (Hl & r & k & H). destruct shapes as [|[[r0 c0] k0] l]; [cbn in Hl; lia|]. cbn [concat_accepts]. destruct (Nat.ltb_spec (length ((r0, c0, k0) :: l)) 2); [lia|].
    destruct (H _ (or_introl eq_refl)) as [H1 H2]. cbn [fst snd] in H1, H2. subst r0 k0. assert (F : forallb (fun '(r', _, k') => (r' =? r) && (k' =? k))%nat ((r, c0, k) :: l) = true).
    { apply forallb_forall. intros [[r' c'] k'] Hs. destruct (H _ Hs) as [A B]. cbn [fst snd] in A, B. subst. now rewrite !Nat.eqb_refl. }
    now rewrite F.
Qed.

(** Flattening a tensor of one channel: row by row, and the error handed back is the derivative. *)
(** Partial, C76: one channel; several are refuted. *)
Theorem flatten_gradient_partial : forall (x e : T) n m (f ep : fn), (0 < n)%nat -> (0 < m)%nat -> is_tensor x n m 1 f -> is_tensor e 1 (n * m) 1 ep ->
  exists u shape back b, flatten_forward [x] = Ok (u, shape) /\ is_tensor u 1 (n * m) 1 (fun _ i _ => f (i / m) (i mod m) 0)%nat /\
    flatten_backward shape e = Ok back /\ is_tensor back n m 1 b /\
    dot 1 (n * m) 1 ep (fun _ i _ => f (i / m) (i mod m) 0)%nat = dot n m 1 b f.
Proof.
  intros x e n m f ep Hn Hm Hx He. pose proof Hx as (X1 & X2 & X3 & X4). pose proof He as (E1 & E2 & E3 & E4). unfold flatten_forward.
  exists (if (rows x =? 1)%nat then x else row_flatten x), (rows x, cols x).
  assert (F : forall i, (i < n * m)%nat -> (i / m < n)%nat /\ (i mod m < m)%nat).
  { intros i Hi. split; [apply Nat.div_lt_upper_bound; lia|apply Nat.mod_upper_bound; lia]. }
  assert (U : is_tensor (if (rows x =? 1)%nat then x else row_flatten x) 1 (n * m) 1 (fun _ i _ => f (i / m)%nat (i mod m)%nat 0%nat)).
  { rewrite X1. destruct (Nat.eqb_spec n 1) as [->|N].
    - repeat split; try lia. intros i j l Hi Hj Hl. rewrite X4 by lia. replace i with 0%nat by lia. replace l with 0%nat by lia. rewrite Nat.div_small, Nat.mod_small by lia. reflexivity.
    - repeat split; cbn [row_flatten rows cols chans get]. { unfold size. rewrite X1, X2, X3. lia. } intros i j l Hi Hj Hl. replace i with 0%nat by lia. replace l with 0%nat by lia. cbn [Nat.eqb andb].
      unfold flat. rewrite X1, X2. destruct (Nat.eqb_spec (m * n) 0); [lia|]. rewrite (Nat.mod_small j (m * n)), (Nat.div_small j (m * n)) by lia. destruct (F j Hj). apply X4; lia. }
  set (b := fun r c (k : nat) => ep 0%nat (r * m + c)%nat 0%nat).
  assert (B : exists back, flatten_backward (rows x, cols x) e = Ok back /\ is_tensor back n m 1 b).
  { unfold flatten_backward. rewrite X1, X2, E1, E2. destruct (Nat.eqb_spec n 1) as [->|N]; cbn [andb].
    - destruct (Nat.eqb_spec m (1 * m)); [|lia]. exists e. split; [reflexivity|]. unfold b. repeat split; try lia. intros i j l Hi Hj Hl. rewrite E4 by lia. replace i with 0%nat by lia. replace l with 0%nat by lia. reflexivity.
    - unfold reshape, elementsPerChannel. rewrite E1, E2. destruct (Nat.eqb_spec (1 * (n * m)) (n * m)); [|lia]. eexists. split; [reflexivity|].
      repeat split; cbn [reshaped rows cols chans get]; auto. intros i j l Hi Hj Hl. replace l with 0%nat by lia. rewrite Nat.mul_0_l, Nat.add_0_r. unfold flat. rewrite E1, E2.
      assert (i * m + j < n * m)%nat by nia. destruct (Nat.eqb_spec (n * m * 1) 0); [lia|]. rewrite (Nat.mod_small (i * m + j) (n * m * 1)), (Nat.div_small (i * m + j) (n * m * 1)), (Nat.div_small (i * m + j) (n * m)), (Nat.mod_small (i * m + j) (n * m)) by lia. apply E4; lia. }
  destruct B as (back & Eb & Hb). exists back, b. split; [reflexivity|]. split; [exact U|]. split; [exact Eb|]. split; [exact Hb|].
  unfold dot. cbn [Sum]. f_equal. cbn [zero add rops]. rewrite Rplus_0_l. clear - Hm.
  assert (G : forall (v : nat -> R) a, SumR (a * m) v = SumR a (fun r => SumR m (fun c => v (r * m + c)%nat))).
  { intros v. induction a as [|a IH]; [reflexivity|]. rewrite Nat.mul_succ_l, (Sum_split rops Ropp rring), IH. reflexivity. }
  rewrite G. apply SumR_ext. intros r _. apply SumR_ext. intros c Hc. unfold b. f_equal. rewrite Nat.div_add_l, Nat.div_small by lia. rewrite (Nat.add_comm (r * m)), Nat.mod_add, Nat.mod_small by lia. now rewrite Nat.add_0_r.
Qed.

(** With several channels the error cannot be handed back: the shape is not restored but an exception is
    thrown, so a network that flattens the output of several filters cannot be trained. *)
Theorem flatten_channels_refuted : forall (x e : T) n m K (f ep : fn), (2 <= n)%nat -> (0 < m)%nat -> (2 <= K)%nat -> is_tensor x n m K f ->
  exists u shape, flatten_forward [x] = Ok (u, shape) /\ rows u = 1%nat /\ cols u = (n * m * K)%nat /\ chans u = 1%nat /\
    (is_tensor e 1 (n * m * K) 1 ep -> flatten_backward shape e = Throw).
Proof.
  intros x e n m K f ep Hn Hm HK (X1 & X2 & X3 & X4). unfold flatten_forward. eexists. eexists. split; [reflexivity|]. rewrite X1. destruct (Nat.eqb_spec n 1); [lia|]. cbn [row_flatten rows cols chans].
  split; [reflexivity|]. split; [unfold size; now rewrite X1, X2, X3|]. split; [reflexivity|]. intros (E1 & E2 & E3 & _). unfold flatten_backward. rewrite E1, E2. destruct (Nat.eqb_spec n 1); [lia|]. cbn [andb].
  unfold reshape, elementsPerChannel. rewrite E1, E2, X2. destruct (Nat.eqb_spec (1 * (n * m * K)) (n * m)); [nia|reflexivity].
Qed.
(** And a single row of several channels is not flattened at all. *)
Theorem flatten_single_row_refuted : forall (x : T), rows x = 1%nat -> flatten_forward [x] = Ok (x, (1%nat, cols x)).
Proof. intros x H. unfold flatten_forward. rewrite H. reflexivity. Qed.

(** ** C77 A batch moves the parameters by the average gradient *)
Theorem fc_batch_descends : forall n I O K rate (w : fn) (s : fc) (records : list ((T * T) * (fn * fn))),
  lastInputs s = [] -> weights_errors s = [] -> is_tensor (fc_weights s) I O K w -> records <> [] ->
  Forall (fun p => is_tensor (fst (fst p)) n I K (fst (snd p)) /\ is_tensor (snd (fst p)) n O K (snd (snd p))) records ->
  exists s' s'', fc_batch s (map fst records) = Ok s' /\ fc_apply (descend rate) s' = Ok s'' /\ lastInputs s'' = [] /\ weights_errors s'' = [] /\ l2 s'' = l2 s /\
    is_tensor (fc_weights s'') I O K (fun i c k =>
      w i c k - rate * (total (fun p => SumR n (fun r => fst (snd p) r i k * snd (snd p) r c k)) records / INR (length records) + strength_of (l2 s) * w i c k)).
Proof.
  intros n I O K rate w s records Hl Hq Hw Hn Hr. destruct (fc_batch_ok n I O K w records s [] Hl Hw Hq (Forall_nil _) Hr) as (s' & q & E & A1 & A2 & A3 & A4 & A5 & A6 & A7).
  cbn [app] in *. rewrite <- A1 in Hw. destruct (fc_apply_ok s' I O K rate w q Hw A4) as (u & Eu & Hu); [|exact A5|].
  { intros ->. cbn in A6. destruct records; [now apply Hn|discriminate]. }
  eexists. eexists. split; [exact E|]. split; [exact Eu|]. cbn [lastInputs weights_errors l2 fc_weights]. split; [exact A2|]. split; [reflexivity|]. split; [exact A3|].
  eapply is_tensor_ext; [exact Hu|]. intros i c k _ _ _. cbv beta. rewrite A7, A6.
  assert (D : forall (g : _ -> R) a (l : list ((T * T) * (fn * fn))), total (fun p => g p + a) l = total g l + INR (length l) * a).
  { intros g a l. unfold total. induction l as [|p l IH]; cbn [fold_right length]; [cbn; ring|]. rewrite IH, S_INR. ring. }
  rewrite D. assert (INR (length records) <> 0) by (apply not_0_INR; intros Z; apply length_zero_iff_nil in Z; contradiction). field. assumption.
Qed.
Theorem bias_batch_descends : forall n m K rate (b : fn) (s : bias) (errors : list (T * fn)), bias_errors s = [] -> is_tensor (bias_values s) n m K b -> errors <> [] ->
  Forall (fun p => is_tensor (fst p) n m K (snd p)) errors ->
  exists s', bias_apply (descend rate) (bias_batch s (map fst errors)) = Ok s' /\ bias_errors s' = [] /\
    is_tensor (bias_values s') n m K (fun r c k => b r c k - rate * (total (fun p => snd p r c k) errors / INR (length errors))).
Proof.
  intros n m K rate b s errors Hq Hb Hn He. destruct (bias_batch_errors (map fst errors) s) as [A B]. rewrite Hq in B. cbn [app] in B. rewrite <- A in Hb.
  destruct (bias_apply_ok _ n m K rate b errors Hb B Hn He) as (u & E & H). eexists. split; [exact E|]. split; [reflexivity|exact H].
Qed.
(** Several inputs before one error count as their mean: what is queued for the weights is the derivative
    for the mean input, and the inputs are used up, so that a second error is refused. *)
Theorem fc_several_inputs : forall n I O K (w ep : fn) (s : fc) (e : T) (inputs : list (T * fn)), lastInputs s = [] -> inputs <> [] ->
  is_tensor (fc_weights s) I O K w -> is_tensor e n O K ep -> Forall (fun p => is_tensor (fst p) n I K (snd p)) inputs ->
  exists s1 s2 back we, fc_forwards s (map fst inputs) = Ok s1 /\ fc_backward s1 e = Ok (s2, back) /\ fc_weights s2 = fc_weights s /\
    is_tensor back n I K (fun r i k => SumR O (fun c => ep r c k * w i c k)) /\
    weights_errors s2 = weights_errors s ++ [we] /\
    is_tensor we I O K (fun i c k => SumR n (fun r => total (fun p => snd p r i k) inputs / INR (length inputs) * ep r c k) + strength_of (l2 s) * w i c k) /\
    forall e', fc_backward s2 e' = Throw.
Proof.
  intros n I O K w ep s e inputs Hl Hn Hw He Hi. pose proof (fc_forwards_ok n I O K w inputs s Hw Hi) as E. rewrite Hl in E. cbn [app] in E.
  match type of E with _ = Ok ?a => set (s1 := a) in * end. destruct (fc_backward_ok s1 e n I O K w ep inputs eq_refl Hn Hi Hw He) as (back & we & E2 & B & G).
  exists s1. eexists. exists back, we. split; [exact E|]. split; [exact E2|]. split; [reflexivity|]. split; [exact B|]. split; [reflexivity|]. split; [exact G|]. reflexivity.
Qed.
(** Without a record since the last change there is an exception, not a change. *)
Theorem nothing_to_apply : forall change (s : fc) (t : bias), (weights_errors s = [] -> fc_apply change s = Throw) /\ (bias_errors t = [] -> bias_apply change t = Throw).
Proof. intros change s t. split; intros E; [unfold fc_apply|unfold bias_apply]; now rewrite E. Qed.

(** ** C78 Dropout *)
(** Whatever the rate and the random numbers, a training pass drops nothing. *)
Theorem dropout_drops_nothing_refuted : forall rate random (x e : T) n m K (f ep : fn), is_tensor x n m K f -> is_tensor e n m K ep ->
  exists y mask back, dropout_train rate random x = Ok (y, mask) /\ is_tensor y n m K f /\ dropout_backward (Some mask) e = Ok back /\ is_tensor back n m K ep.
Proof.
  intros rate random x e n m K f ep Hx He. pose proof Hx as (X1 & X2 & X3 & _). unfold dropout_train. rewrite X1, X2, X3.
  match goal with |- context [multiply_view rops x ?a] => set (mask := a) end.
  assert (M : is_tensor mask n m K (fun _ _ _ => 1)). { repeat split. intros i j l _ _ _. unfold mask, masked_select, trinary. cbn [get obind]. now destruct (gtb rops _ rate). }
  destruct (pointwise_element Rmult x mask n m K f _ Hx M) as (y & Ey & Hy). destruct (pointwise_element Rmult e mask n m K ep _ He M) as (back & Eb & Hb).
  exists y, mask, back. unfold multiply_view, dropout_backward, multiply_view. cbn [mul rops]. rewrite Ey. cbn [obind]. split; [reflexivity|].
  split; [eapply is_tensor_ext; [exact Hy|]; intros; cbv beta; ring|]. split; [exact Eb|]. eapply is_tensor_ext; [exact Hb|]; intros; cbv beta; ring.
Qed.
(** A prediction multiplies by 1 / (1 - rate), so it is not what training saw, except with a rate of 0. *)
Theorem dropout_prediction_refuted : forall rate random (x : T) n m K (f : fn), 0 <= rate < 1 -> is_tensor x n m K f ->
  exists scale y mask u, dropout_scale rate = Some scale /\ dropout_train rate random x = Ok (y, mask) /\ dropout_predict scale x = Ok u /\
    is_tensor u n m K (fun r c k => f r c k / (1 - rate)) /\
    forall r c k, (r < n)%nat -> (c < m)%nat -> (k < K)%nat -> get u r c k = get y r c k <-> rate = 0 \/ f r c k = 0.
Proof.
  intros rate random x n m K f Hr Hx. destruct (dropout_drops_nothing_refuted rate random x x n m K f f Hx Hx) as (y & mask & _ & Ey & Hy & _).
  exists (1 / (1 - rate)), y, mask. unfold dropout_scale. destruct (Rlt_dec rate 0); [lra|]. destruct (Rlt_dec 1 rate); [lra|].
  assert (U : is_tensor (uniform n m K (1 / (1 - rate))) n m K (fun _ _ _ => 1 / (1 - rate))) by (repeat split).
  destruct (pointwise_element Rmult x _ n m K f _ Hx U) as (u & Eu & Hu). exists u. split; [reflexivity|]. split; [exact Ey|].
  pose proof Hx as (X1 & X2 & X3 & _). unfold dropout_predict. rewrite X1, X2, X3. split; [exact Eu|].
  assert (Hu' : is_tensor u n m K (fun r c k => f r c k / (1 - rate))) by (eapply is_tensor_ext; [exact Hu|]; intros; cbv beta; field; lra).
  split; [exact Hu'|]. intros r c k Hr' Hc Hk. destruct Hu' as (_ & _ & _ & ->); auto. destruct Hy as (_ & _ & _ & ->); auto. split.
  - intros [= E]. destruct (Req_dec (f r c k) 0) as [Z|Z]; [now right|left]. assert (f r c k = f r c k * (1 - rate)) by (rewrite <- E at 2; field; lra).
    assert (f r c k * rate = 0) by lra. apply Rmult_integral in H0. tauto.
  - intros [->| ->]; f_equal; field; lra.
Qed.
(** Rates outside [0, 1] are refused; an error before any training pass has nothing to be multiplied with. *)
(** Partial, C78: only the check of the rate; what dropout does is refuted. *)
Theorem dropout_rates_partial : forall rate, dropout_scale rate = None <-> rate < 0 \/ 1 < rate.
Proof. intros rate. unfold dropout_scale. destruct (Rlt_dec rate 0), (Rlt_dec 1 rate); split; intros H; try discriminate; try tauto; lra. Qed.

(** ** C79 Normalization *)
(** The loop that finds the mean and the deviation, over the elements. *)
Lemma parameters_fold : forall (t : T) n m K (f : fn), is_tensor t n m K f -> exists mean M2,
  fold_left (fun '(mean, M2) value => let delta := value - mean in let mean := mean + delta / INR (n * m * K) in (mean, M2 + delta * (value - mean))) (elements n m K f) (0, 0) = (mean, M2) /\
  standardize_parameters t = Ok (mean, if Req_EM_T (M2 / INR (n * m * K)) 0 then 1 else sqrt (M2 / INR (n * m * K))).
Proof.
  intros t n m K f H. pose proof H as (H1 & H2 & H3 & _). unfold standardize_parameters. assert (Es : size t = (n * m * K)%nat) by (unfold size; congruence). rewrite <- Es. cbv zeta.
  set (N := INR (size t)). destruct (fold_left _ (elements n m K f) (0, 0)) as [mean M2] eqn:E. exists mean, M2. split; [reflexivity|].
  rewrite (loop_ext _ _ _ (fun i s => do v <- flat t i; (fun '(mean, M2) value => Ok (mean + (value - mean) / N, M2 + (value - mean) * (value - (mean + (value - mean) / N)))) s v)).
  - erewrite (loop_flat t n m K f (fun '(mean, M2) value => (mean + (value - mean) / N, M2 + (value - mean) * (value - (mean + (value - mean) / N))))); [|exact H|intros [? ?] v; reflexivity].
    rewrite E. reflexivity.
  - intros j [a b]. reflexivity.
Qed.
Lemma fold_M2 : forall N l mean M2 mean' M2', 1 <= N -> 0 <= M2 ->
  fold_left (fun '(mean, M2) value => let delta := value - mean in let mean := mean + delta / N in (mean, M2 + delta * (value - mean))) l (mean, M2) = (mean', M2') -> 0 <= M2'.
Proof.
  intros N l. induction l as [|v l IH]; intros mean M2 mean' M2' HN H0 E; cbn [fold_left] in E; [injection E as _ <-; exact H0|]. eapply IH; [exact HN| |exact E].
  replace ((v - mean) * (v - (mean + (v - mean) / N))) with ((v - mean) ^ 2 * (1 - / N)) by (field; lra).
  assert (0 <= (v - mean) ^ 2) by (apply pow2_ge_0). assert (/ N <= 1) by (rewrite <- Rinv_1; apply Rinv_le_contravar; lra).
  assert (0 <= (v - mean) ^ 2 * (1 - / N)) by (apply Rmult_le_pos; lra). lra.
Qed.
(** The mean it uses after a run of equal elements. *)
Lemma fold_constant : forall N c l mean M2, N <> 0 -> (forall v, In v l -> v = c) ->
  fst (fold_left (fun '(mean, M2) value => let delta := value - mean in let mean := mean + delta / N in (mean, M2 + delta * (value - mean))) l (mean, M2)) = c - (c - mean) * (1 - / N) ^ length l.
Proof.
  intros N c l. induction l as [|v l IH]; intros mean M2 HN H; cbn [fold_left length]; [cbn [fst pow]; ring|]. rewrite IH; [|exact HN|intros; apply H; now right].
  rewrite (H v (or_introl eq_refl)). cbn [pow]. replace (c - (mean + (c - mean) / N)) with ((c - mean) * (1 - / N)) by (field; exact HN). ring.
Qed.
Lemma deviation_pos : forall v, 0 <= v -> 0 < (if Req_EM_T v 0 then 1 else sqrt v).
Proof. intros v H. destruct (Req_EM_T v 0); [lra|]. apply sqrt_lt_R0. lra. Qed.

(** The layer moves and scales all elements alike, and keeps their order. *)
(** Partial, C79: missing are the centre and the derivative, which are refuted. *)
Theorem normalization_is_affine_partial : forall (x : T) n m K (f : fn), is_tensor x n m K f -> (0 < n * m * K)%nat ->
  exists u mean dev, normalization_forward [x] = Ok (u, (mean, dev)) /\ 0 < dev /\ is_tensor u n m K (fun r c k => (f r c k - mean) / dev).
Proof.
  intros x n m K f Hx Hp. destruct (parameters_fold x n m K f Hx) as (mean & M2 & Ef & E). unfold normalization_forward. rewrite E. cbn [obind fst snd].
  eexists. eexists. eexists. split; [reflexivity|]. assert (HN : 1 <= INR (n * m * K)) by (change 1 with (INR 1); apply le_INR; lia).
  split; [|exact (transform_tensor _ _ _ _ _ _ Hx)]. apply deviation_pos. pose proof (fold_M2 _ _ 0 0 mean M2 HN (Rle_refl 0) Ef) as P. apply Rmult_le_pos; [exact P|]. apply Rlt_le, Rinv_0_lt_compat. lra.
Qed.
(** But the mean it subtracts is not the mean of the elements: equal elements, two or more and not zero, do not
    become zero. *)
Theorem normalization_centre_refuted : forall (x : T) n m K v, is_tensor x n m K (fun _ _ _ => v) -> (2 <= n * m * K)%nat -> v <> 0 ->
  exists u p g, normalization_forward [x] = Ok (u, p) /\ is_tensor u n m K g /\ forall r c k, g r c k <> 0.
Proof.
  intros x n m K v Hx HN Hv. destruct (normalization_is_affine_partial x n m K _ Hx ltac:(lia)) as (u & mean & dev & E & Hd & Hu). exists u, (mean, dev). eexists. split; [exact E|]. split; [exact Hu|].
  intros r c k. cbv beta. assert (2 <= INR (n * m * K)) as HN2 by (change 2 with (INR 2); apply le_INR; lia).
  assert (M : mean = v - v * (1 - / INR (n * m * K)) ^ (n * m * K)).
  { destruct (parameters_fold x n m K _ Hx) as (mean' & M2 & Ef & E'). unfold normalization_forward in E. rewrite E' in E. cbn [obind] in E. injection E as _ <- _.
    apply (f_equal fst) in Ef. cbn [fst] in Ef. rewrite <- Ef, (fold_constant _ v) by (try lra; intros y Hy; apply elements_in in Hy; destruct Hy as (? & ? & ? & ? & ? & ? & <-); reflexivity).
    rewrite elements_length. ring. }
  rewrite M. assert (0 < (1 - / INR (n * m * K)) ^ (n * m * K)).
  { apply pow_lt. assert (/ INR (n * m * K) <= / 2) by (apply Rinv_le_contravar; lra). lra. }
  replace (v - (v - v * (1 - / INR (n * m * K)) ^ (n * m * K))) with (v * (1 - / INR (n * m * K)) ^ (n * m * K)) by ring.
  intros Z. unfold Rdiv in Z. apply Rmult_integral in Z as [Z|Z]; [apply Rmult_integral in Z as [Z|Z]; lra|]. pose proof (Rinv_0_lt_compat _ Hd). lra.
Qed.
(** Nor is the error it hands back a derivative: a single element always becomes 0, so the derivative is 0,
    but the error is multiplied by 1 + x - x^2. *)
Theorem normalization_gradient_refuted : forall x e : R, let input v := uniform 1 1 1 v : T in
  exists u p back, normalization_forward [input x] = Ok (u, p) /\ is_tensor u 1 1 1 (fun _ _ _ => 0) /\
    normalization_backward (Some (u, p)) (input e) = Ok back /\ is_tensor back 1 1 1 (fun _ _ _ => e * (1 + x - x ^ 2)).
Proof.
  intros x e input. unfold normalization_forward, standardize_parameters. unfold size, input. cbn [uniform rows cols chans Nat.mul Nat.add loop flat Nat.eqb get obind INR].
  assert (Z : (0 + (x - 0) * (x - (0 + (x - 0) / 1))) / 1 = 0) by field. destruct (Req_EM_T _ 0) as [_|N]; [|now destruct N]. cbn [fst snd]. clear Z.
  eexists. eexists. eexists. split; [reflexivity|]. split.
  - repeat split. intros i j l _ _ _. cbn. f_equal. field.
  - split; [reflexivity|]. repeat split. intros i j l _ _ _. cbn. f_equal. field.
Qed.

(** ** Examples *)
(** Two records through 2 inputs and 1 output, with regularization. *)
Definition row2 (a b : R) : T := {| rows := 1; cols := 2; chans := 1; get := fun _ c _ => Ok (if (c =? 0)%nat then a else b) |}.
Example a_batch : exists s' s'', fc_batch {| fc_weights := uniform 2 1 1 (1 / 2); lastInputs := []; weights_errors := []; l2 := Some (1 / 10) |}
    [(row2 1 2, uniform 1 1 1 3); (row2 (-1) 4, uniform 1 1 1 1)] = Ok s' /\ fc_apply (descend (1 / 2)) s' = Ok s'' /\
  get (fc_weights s'') 0 0 0 = Ok (1 / 2 - 1 / 2 * ((3 - 1) / 2 + 1 / 20)).
Proof.
  pose (f1 := (fun _ c _ => if (c =? 0)%nat then 1 else 2) : fn). pose (f2 := (fun _ c _ => if (c =? 0)%nat then -1 else 4) : fn).
  destruct (fc_batch_descends 1 2 1 1 (1 / 2) (fun _ _ _ => 1 / 2) {| fc_weights := uniform 2 1 1 (1 / 2); lastInputs := []; weights_errors := []; l2 := Some (1 / 10) |}
    [((row2 1 2, uniform 1 1 1 3), (f1, fun _ _ _ => 3)); ((row2 (-1) 4, uniform 1 1 1 1), (f2, fun _ _ _ => 1))]) as (s' & s'' & E1 & E2 & _ & _ & _ & H); auto.
  - repeat split.
  - discriminate.
  - repeat constructor.
  - exists s', s''. split; [exact E1|]. split; [exact E2|]. destruct H as (_ & _ & _ & H). rewrite H by lia. cbn. f_equal. field.
Qed.
Example three_beside : exists u, concat_forward [uniform 1 2 1 5; uniform 1 1 1 6; uniform 1 3 1 7] = Ok u /\ cols u = 6%nat /\ get u 0 2 0 = Ok 6.
Proof. eexists. split; [reflexivity|]. split; reflexivity. Qed.
Example two_filters_flattened : exists u shape, flatten_forward [uniform 2 2 2 1] = Ok (u, shape) /\ flatten_backward shape (uniform 1 8 1 1) = Throw.
Proof. eexists. eexists. split; reflexivity. Qed.

Print Assumptions fc_input_gradient.
Print Assumptions fc_weight_gradient.
Print Assumptions bias_gradient.
Print Assumptions concat_gradient.
Print Assumptions concat_refuses.
Print Assumptions flatten_gradient_partial.
Print Assumptions flatten_channels_refuted.
Print Assumptions flatten_single_row_refuted.
Print Assumptions fc_batch_descends.
Print Assumptions fc_several_inputs.
Print Assumptions bias_batch_descends.
Print Assumptions nothing_to_apply.
Print Assumptions dropout_drops_nothing_refuted.
Print Assumptions dropout_prediction_refuted.
Print Assumptions dropout_rates_partial.
Print Assumptions normalization_is_affine_partial.
Print Assumptions normalization_centre_refuted.
Print Assumptions normalization_gradient_refuted.
