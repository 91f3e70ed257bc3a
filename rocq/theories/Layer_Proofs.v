(** Proofs about the layers. *)
From Coq Require Import List Arith Bool Reals Lia Lra.
From Verif Require Import Outcome Tensor_Model Tensor_Spec Views_Proofs Algebra_Proofs MatMul_Proofs Reduce_Model Activation_Model Activation_Proofs Layer_Model Layer_Spec.
Import ListNotations.
Local Open Scope R_scope.

Lemma rring : ring_theory (zero rops) (one rops) (add rops) (mul rops) (sub rops) Ropp eq.
Proof. constructor; intros; cbn; ring. Qed.
Notation SumR := (Sum rops).
Lemma SumR_ext : forall n f g, (forall i, (i < n)%nat -> f i = g i) -> SumR n f = SumR n g.
Proof. exact (Sum_ext rops). Qed.
Lemma SumR_add : forall n f g, SumR n (fun i => f i + g i) = SumR n f + SumR n g.
Proof. exact (Sum_add rops Ropp rring). Qed.
Lemma SumR_sub : forall n f g, SumR n (fun i => f i - g i) = SumR n f - SumR n g.
Proof. exact (Sum_sub rops Ropp rring). Qed.
Lemma SumR_mul_l : forall n a f, SumR n (fun i => a * f i) = a * SumR n f.
Proof. exact (Sum_mul_l rops Ropp rring). Qed.
Lemma SumR_mul_r : forall n a f, SumR n (fun i => f i * a) = SumR n f * a.
Proof. exact (Sum_mul_r rops Ropp rring). Qed.
Lemma SumR_swap : forall n m f, SumR n (fun i => SumR m (fun j => f i j)) = SumR m (fun j => SumR n (fun i => f i j)).
Proof. exact (Sum_swap rops Ropp rring). Qed.

Lemma dot_ext : forall n m K f g f' g', (forall r c k, (r < n)%nat -> (c < m)%nat -> (k < K)%nat -> f r c k = f' r c k /\ g r c k = g' r c k) -> dot n m K f g = dot n m K f' g'.
Proof. intros n m K f g f' g' H. unfold dot. apply SumR_ext. intros k Hk. apply SumR_ext. intros r Hr. apply SumR_ext. intros c Hc. destruct (H r c k Hr Hc Hk) as [-> ->]. reflexivity. Qed.
Lemma dot_sub_r : forall n m K f g h, dot n m K f (fun r c k => g r c k - h r c k) = dot n m K f g - dot n m K f h.
Proof.
  intros n m K f g h. unfold dot. rewrite <- SumR_sub. apply SumR_ext. intros k _. rewrite <- SumR_sub. apply SumR_ext. intros r _. rewrite <- SumR_sub. apply SumR_ext. intros c _. ring.
Qed.
Lemma dot_add_r : forall n m K f g h, dot n m K f (fun r c k => g r c k + h r c k) = dot n m K f g + dot n m K f h.
Proof.
  intros n m K f g h. unfold dot. rewrite <- SumR_add. apply SumR_ext. intros k _. rewrite <- SumR_add. apply SumR_ext. intros r _. rewrite <- SumR_add. apply SumR_ext. intros c _. ring.
Qed.
Lemma dot_add_l : forall n m K f g h, dot n m K (fun r c k => g r c k + h r c k) f = dot n m K g f + dot n m K h f.
Proof.
  intros n m K f g h. unfold dot. rewrite <- SumR_add. apply SumR_ext. intros k _. rewrite <- SumR_add. apply SumR_ext. intros r _. rewrite <- SumR_add. apply SumR_ext. intros c _. ring.
Qed.
Lemma dot_scale_l : forall n m K a f g, dot n m K (fun r c k => a * f r c k) g = a * dot n m K f g.
Proof.
  intros n m K a f g. unfold dot. rewrite <- SumR_mul_l. apply SumR_ext. intros k _. rewrite <- SumR_mul_l. apply SumR_ext. intros r _. rewrite <- SumR_mul_l. apply SumR_ext. intros c _. ring.
Qed.

(** e . (h W) = (e W') . h *)
Lemma dot_product_input : forall n I O K (e h w : nat -> nat -> nat -> R),
  dot n O K e (fun r c k => SumR I (fun i => h r i k * w i c k)) = dot n I K (fun r i k => SumR O (fun c => e r c k * w i c k)) h.
Proof.
  intros n I O K e h w. unfold dot. apply SumR_ext. intros k _. apply SumR_ext. intros r _.
  transitivity (SumR O (fun c => SumR I (fun i => e r c k * w i c k * h r i k))).
  - apply SumR_ext. intros c _. rewrite <- SumR_mul_l. apply SumR_ext. intros i _. ring.
  - rewrite SumR_swap. apply SumR_ext. intros i _. rewrite <- SumR_mul_r. reflexivity.
Qed.
(** e . (x D) = (x' e) . D *)
Lemma dot_product_weights : forall n I O K (e x d : nat -> nat -> nat -> R),
  dot n O K e (fun r c k => SumR I (fun i => x r i k * d i c k)) = dot I O K (fun i c k => SumR n (fun r => x r i k * e r c k)) d.
Proof.
  intros n I O K e x d. unfold dot. apply SumR_ext. intros k _.
  transitivity (SumR n (fun r => SumR I (fun i => SumR O (fun c => x r i k * e r c k * d i c k)))).
  - apply SumR_ext. intros r _. rewrite SumR_swap. apply SumR_ext. intros c _. rewrite <- SumR_mul_l. apply SumR_ext. intros i _. ring.
  - rewrite SumR_swap. apply SumR_ext. intros i _. rewrite SumR_swap. apply SumR_ext. intros c _. rewrite <- SumR_mul_r. reflexivity.
Qed.

Lemma materialize_tensor : forall (t : T) n m K f, is_tensor t n m K f -> exists u, materialize t = Ok u /\ is_tensor u n m K f.
Proof.
  intros t n m K f H. destruct (materialize_ok t (is_tensor_readable _ _ _ _ _ H)) as (u & E & (S1 & S2 & S3 & S4) & _).
  exists u. split; [exact E|]. destruct H as (H1 & H2 & H3 & H4). repeat split; try congruence. intros i j l Hi Hj Hl.
  rewrite S4. { now apply H4. } unfold in_range. rewrite S1, S2, S3, H1, H2, H3. auto.
Qed.
Lemma scale_tensor : forall (t : T) n m K f a, is_tensor t n m K f -> is_tensor (scalar_multiply rops t a) n m K (fun r c k => a * f r c k).
Proof.
  intros t n m K f a (H1 & H2 & H3 & H4). repeat split; cbn; auto. intros i j l Hi Hj Hl. rewrite H4 by auto. reflexivity.
Qed.
Lemma queue_sum_tensor : forall n m K (rest : list (T * (nat -> nat -> nat -> R))) first f,
  is_tensor first n m K f -> Forall (fun p => is_tensor (fst p) n m K (snd p)) rest ->
  exists u, queue_sum first (map fst rest) = Ok u /\ is_tensor u n m K (fun r c k => f r c k + total (fun p => snd p r c k) rest).
Proof.
  intros n m K rest. unfold queue_sum. induction rest as [|[t g] rest IH]; intros first f Hf Hr.
  - exists first. split; [reflexivity|]. eapply is_tensor_ext; [exact Hf|]. intros. cbn. ring.
  - inversion Hr as [|? ? Ht Hr']; subst. cbn [fst snd] in Ht. cbn [map fold_left fst obind].
    destruct (pointwise_element Rplus first t n m K f g Hf Ht) as (v & Ev & Hv). unfold add_view. cbn [add rops]. rewrite Ev.
    destruct (IH v _ Hv Hr') as (u & Eu & Hu). exists u. split; [exact Eu|]. eapply is_tensor_ext; [exact Hu|]. intros. unfold total. cbn [fold_right snd fst]. cbv beta. ring.
Qed.
Lemma queue_mean_tensor : forall n m K (q : list (T * (nat -> nat -> nat -> R))), q <> [] -> Forall (fun p => is_tensor (fst p) n m K (snd p)) q ->
  exists first rest u v, map fst q = first :: rest /\ queue_sum first rest = Ok u /\ materialize (scalar_divide u (INR (length (map fst q)))) = Ok v /\
    is_tensor v n m K (fun r c k => total (fun p => snd p r c k) q / INR (length q)).
Proof.
  intros n m K [|[t f] rest] Hn Hq; [contradiction|]. inversion Hq as [|? ? Ht Hr]; subst. cbn [fst snd] in Ht.
  destruct (queue_sum_tensor n m K rest t f Ht Hr) as (u & Eu & Hu).
  pose proof (transform_tensor (fun v => v / INR (length (map fst ((t, f) :: rest)))) _ _ _ _ _ Hu) as Hd.
  destruct (materialize_tensor _ _ _ _ _ Hd) as (v & Ev & Hv). exists t, (map fst rest), u, v. split; [reflexivity|]. split; [exact Eu|]. split; [exact Ev|].
  eapply is_tensor_ext; [exact Hv|]. intros. cbn beta. rewrite map_length. reflexivity.
Qed.

Notation fn := (nat -> nat -> nat -> R).
(** One record through the fully connected layer. *)
Lemma fc_record : forall (s : fc) (x e : T) n I O K (w f ep : fn),
  lastInputs s = [] -> is_tensor (fc_weights s) I O K w -> is_tensor x n I K f -> is_tensor e n O K ep ->
  exists s1 y back we, fc_forward s [x] true = Ok (s1, y) /\ is_tensor y n O K (fun r c k => SumR I (fun i => f r i k * w i c k)) /\
    fc_backward s1 e = Ok ({| fc_weights := fc_weights s; lastInputs := []; weights_errors := weights_errors s ++ [we]; l2 := l2 s |}, back) /\
    is_tensor back n I K (fun r i k => SumR O (fun c => ep r c k * w i c k)) /\
    is_tensor we I O K (fun i c k => SumR n (fun r => f r i k * ep r c k) + strength_of (l2 s) * w i c k).
Proof.
  intros s x e n I O K w f ep Hq Hw Hx He. unfold fc_forward.
  destruct (multiply_element rops x (fc_weights s) n I O K f w Hx Hw) as (y & Ey & Hy).
  cbn [fc_weights]. rewrite Ey. cbn [obind]. exists {| fc_weights := fc_weights s; lastInputs := lastInputs s ++ [x]; weights_errors := weights_errors s; l2 := l2 s |}, y.
  pose proof (transpose_tensor _ _ _ _ _ Hw) as Hwt. destruct (multiply_element rops e _ n O I K ep _ He Hwt) as (p & Ep & Hp).
  destruct (materialize_tensor _ _ _ _ _ Hp) as (back & Eb & Hb). exists back.
  pose proof (transpose_tensor _ _ _ _ _ Hx) as Hxt. destruct (multiply_element rops _ e I n O K _ ep Hxt He) as (we & Ew & Hwe).
  unfold fc_backward. cbn [lastInputs fc_weights weights_errors l2]. rewrite Hq. cbn [app obind].
  rewrite Ep. cbn [obind]. rewrite Eb. cbn [obind]. rewrite Ew. cbn [obind].
  destruct (l2 s) as [st|] eqn:El.
  - destruct (pointwise_element Rplus we (scalar_multiply rops (fc_weights s) st) I O K _ _ Hwe (scale_tensor _ _ _ _ _ st Hw)) as (u & Eu & Hu).
    exists u. split; [reflexivity|]. split; [exact Hy|]. unfold add_view. cbn [add rops]. rewrite Eu. cbn [obind]. split; [reflexivity|]. split; [exact Hb|]. exact Hu.
  - exists we. split; [reflexivity|]. split; [exact Hy|]. cbn [obind]. split; [reflexivity|]. split; [exact Hb|].
    eapply is_tensor_ext; [exact Hwe|]. intros. cbn [strength_of mul rops]. ring.
Qed.

Lemma fc_batch_ok : forall n I O K (w : fn) (records : list ((T * T) * (fn * fn))) (s : fc) (q : list (T * fn)),
  lastInputs s = [] -> is_tensor (fc_weights s) I O K w -> weights_errors s = map fst q -> Forall (fun p => is_tensor (fst p) I O K (snd p)) q ->
  Forall (fun p => is_tensor (fst (fst p)) n I K (fst (snd p)) /\ is_tensor (snd (fst p)) n O K (snd (snd p))) records ->
  exists s' q', fc_batch s (map fst records) = Ok s' /\ fc_weights s' = fc_weights s /\ lastInputs s' = [] /\ l2 s' = l2 s /\
    weights_errors s' = map fst (q ++ q') /\ Forall (fun p => is_tensor (fst p) I O K (snd p)) (q ++ q') /\ length q' = length records /\
    forall i c k, total (fun p => snd p i c k) q' = total (fun p => SumR n (fun r => fst (snd p) r i k * snd (snd p) r c k) + strength_of (l2 s) * w i c k) records.
Proof.
  intros n I O K w records. induction records as [|[[x e] [f ep]] records IH]; intros s q Hl Hw Hq Hqs Hr.
  - exists s, []. rewrite !app_nil_r. cbn. auto 10.
  - inversion Hr as [|? ? [Hx He] Hr']; subst. cbn [fst snd] in *.
    destruct (fc_record s x e n I O K w f ep Hl Hw Hx He) as (s1 & y & back & we & E1 & _ & E2 & _ & Hwe).
    cbn [map fst fc_batch]. rewrite E1. cbn [obind fst]. rewrite E2. cbn [obind fst].
    set (s2 := {| fc_weights := fc_weights s; lastInputs := []; weights_errors := weights_errors s ++ [we]; l2 := l2 s |}) in *.
    destruct (IH s2 (q ++ [(we, fun i c k => SumR n (fun r => f r i k * ep r c k) + strength_of (l2 s) * w i c k)])) as (s' & q' & A1 & A2 & A3 & A4 & A5 & A6 & A7 & A8); auto.
    + cbn [weights_errors s2]. rewrite map_app, Hq. reflexivity.
    + apply Forall_app. split; [exact Hqs|]. constructor; [exact Hwe|constructor].
    + exists s', ((we, fun i c k => SumR n (fun r => f r i k * ep r c k) + strength_of (l2 s) * w i c k) :: q').
      rewrite <- app_assoc in A5, A6. cbn [app] in A5, A6. split; [exact A1|]. split; [exact A2|]. split; [exact A3|]. split; [exact A4|]. split; [exact A5|]. split; [exact A6|].
      split; [cbn; now rewrite A7|]. intros i c k. specialize (A8 i c k). unfold total in *. cbn [fold_right snd fst]. rewrite A8. reflexivity.
Qed.

Lemma fc_apply_ok : forall (s : fc) I O K rate (w : fn) (q : list (T * fn)), is_tensor (fc_weights s) I O K w -> weights_errors s = map fst q -> q <> [] ->
  Forall (fun p => is_tensor (fst p) I O K (snd p)) q ->
  exists u, fc_apply (descend rate) s = Ok {| fc_weights := u; lastInputs := lastInputs s; weights_errors := []; l2 := l2 s |} /\
    is_tensor u I O K (fun i c k => w i c k - rate * (total (fun p => snd p i c k) q / INR (length q))).
Proof.
  intros s I O K rate w q Hw Hq Hn Hqs. destruct (queue_mean_tensor I O K q Hn Hqs) as (first & rest & u & v & E1 & E2 & E3 & Hv).
  unfold fc_apply. rewrite Hq, E1. rewrite <- E1. rewrite E2. cbn [obind]. rewrite E3. cbn [obind]. unfold descend, subtract_view. cbn [sub rops].
  destruct (pointwise_element Rminus _ _ _ _ _ _ _ Hw (scale_tensor _ _ _ _ _ rate Hv)) as (d & Ed & Hd). rewrite Ed. cbn [obind].
  destruct (materialize_tensor _ _ _ _ _ Hd) as (z & Ez & Hz). rewrite Ez. cbn [obind]. exists z. split; [reflexivity|]. exact Hz.
Qed.

Lemma fc_forwards_ok : forall n I O K (w : fn) (inputs : list (T * fn)) (s : fc), is_tensor (fc_weights s) I O K w -> Forall (fun p => is_tensor (fst p) n I K (snd p)) inputs ->
  fc_forwards s (map fst inputs) = Ok {| fc_weights := fc_weights s; lastInputs := lastInputs s ++ map fst inputs; weights_errors := weights_errors s; l2 := l2 s |}.
Proof.
  intros n I O K w inputs. induction inputs as [|[x f] inputs IH]; intros s Hw Hi; cbn [map fc_forwards fst].
  - rewrite app_nil_r. now destruct s.
  - inversion Hi as [|? ? Hx Hi']; subst. cbn [fst snd] in Hx. unfold fc_forward at 1. destruct (multiply_element rops x (fc_weights s) n I O K f w Hx Hw) as (y & Ey & _).
    cbn [fc_weights]. rewrite Ey. cbn [obind fst]. rewrite IH by (cbn [fc_weights]; assumption). cbn [fc_weights lastInputs weights_errors l2]. now rewrite <- app_assoc.
Qed.
Lemma fc_backward_ok : forall (s : fc) (e : T) n I O K (w ep : fn) (q : list (T * fn)), lastInputs s = map fst q -> q <> [] -> Forall (fun p => is_tensor (fst p) n I K (snd p)) q ->
  is_tensor (fc_weights s) I O K w -> is_tensor e n O K ep -> exists back we,
    fc_backward s e = Ok ({| fc_weights := fc_weights s; lastInputs := []; weights_errors := weights_errors s ++ [we]; l2 := l2 s |}, back) /\
    is_tensor back n I K (fun r i k => SumR O (fun c => ep r c k * w i c k)) /\
    is_tensor we I O K (fun i c k => SumR n (fun r => total (fun p => snd p r i k) q / INR (length q) * ep r c k) + strength_of (l2 s) * w i c k).
Proof.
  intros s e n I O K w ep q Hq Hn Hqs Hw He. pose proof (transpose_tensor _ _ _ _ _ Hw) as Hwt. destruct (multiply_element rops e _ n O I K ep _ He Hwt) as (p & Ep & Hp).
  destruct (materialize_tensor _ _ _ _ _ Hp) as (back & Eb & Hb). exists back.
  destruct (queue_mean_tensor n I K q Hn Hqs) as (first & rest & u & v & E1 & E2 & E3 & Hv).
  assert (A : exists a, match rest with [] => Ok first | _ => do sum <- queue_sum first rest; materialize (scalar_divide sum (INR (length (map fst q)))) end = Ok a /\
    is_tensor a n I K (fun r i k => total (fun p => snd p r i k) q / INR (length q))).
  { destruct rest as [|y rest].
    - exists first. split; [reflexivity|]. destruct q as [|[x f] [|]]; try discriminate E1. injection E1 as <-. inversion Hqs as [|? ? Hx _]; subst. cbn [fst snd] in Hx. eapply is_tensor_ext; [exact Hx|].
      intros. cbv beta. unfold total. cbn [fold_right snd length INR]. field.
    - exists v. rewrite E2. cbn [obind]. split; [exact E3|exact Hv]. }
  destruct A as (a & Ea & Ha). pose proof (transpose_tensor _ _ _ _ _ Ha) as Hat. destruct (multiply_element rops _ e I n O K _ ep Hat He) as (we & Ew & Hwe).
  unfold fc_backward. rewrite Hq, E1. rewrite <- E1, Ea. cbn [obind]. rewrite Ep. cbn [obind]. rewrite Eb. cbn [obind]. rewrite Ew. cbn [obind].
  destruct (l2 s) as [st|] eqn:El.
  - destruct (pointwise_element Rplus we (scalar_multiply rops (fc_weights s) st) I O K _ _ Hwe (scale_tensor _ _ _ _ _ st Hw)) as (z & Eu & Hu).
    exists z. unfold add_view. cbn [add rops]. rewrite Eu. cbn [obind]. split; [reflexivity|]. split; [exact Hb|]. exact Hu.
  - exists we. cbn [obind]. split; [reflexivity|]. split; [exact Hb|]. eapply is_tensor_ext; [exact Hwe|]. intros. cbn [strength_of mul rops]. ring.
Qed.

Lemma bias_batch_errors : forall errors s, bias_values (bias_batch s errors) = bias_values s /\ bias_errors (bias_batch s errors) = bias_errors s ++ errors.
Proof.
  induction errors as [|e errors IH]; intros s; cbn [bias_batch]; [now rewrite app_nil_r|]. destruct (IH (fst (bias_backward s e))) as [A B].
  split; [exact A|]. etransitivity; [exact B|]. cbn [bias_backward fst bias_errors]. now rewrite <- app_assoc.
Qed.
Lemma bias_apply_ok : forall (s : bias) n m K rate (b : fn) (q : list (T * fn)), is_tensor (bias_values s) n m K b -> bias_errors s = map fst q -> q <> [] ->
  Forall (fun p => is_tensor (fst p) n m K (snd p)) q ->
  exists u, bias_apply (descend rate) s = Ok {| bias_values := u; bias_errors := [] |} /\
    is_tensor u n m K (fun i c k => b i c k - rate * (total (fun p => snd p i c k) q / INR (length q))).
Proof.
  intros s n m K rate b q Hb Hq Hn Hqs. destruct (queue_mean_tensor n m K q Hn Hqs) as (first & rest & u & v & E1 & E2 & E3 & Hv).
  unfold bias_apply. rewrite Hq, E1. rewrite <- E1. rewrite E2. cbn [obind]. rewrite E3. cbn [obind]. unfold descend, subtract_view. cbn [sub rops].
  destruct (pointwise_element Rminus _ _ _ _ _ _ _ Hb (scale_tensor _ _ _ _ _ rate Hv)) as (d & Ed & Hd). rewrite Ed. cbn [obind].
  destruct (materialize_tensor _ _ _ _ _ Hd) as (z & Ez & Hz). rewrite Ez. cbn [obind]. exists z. split; [reflexivity|]. exact Hz.
Qed.

(** ** Concatenation *)
(** Element at column [c] of tensors beside each other. *)
Fixpoint beside (parts : list (nat * fn)) (r c k : nat) : R :=
  match parts with
  | [] => 0
  | (w, f) :: parts => if (c <? w)%nat then f r c k else beside parts r (c - w)%nat k
  end.
Definition width (parts : list (nat * fn)) : nat := list_sum (map fst parts).
Lemma width_cons : forall p parts, width (p :: parts) = (fst p + width parts)%nat.
Proof. reflexivity. Qed.
Lemma beside_app : forall parts w f r c k, (c < width parts + w)%nat -> beside (parts ++ [(w, f)]) r c k = if (c <? width parts)%nat then beside parts r c k else f r (c - width parts)%nat k.
Proof.
  induction parts as [|[w' f'] parts IH]; intros w f r c k H.
  - cbn [app beside]. change (width []) with 0%nat in *. cbn [Nat.ltb]. destruct (Nat.ltb_spec c w); [|lia]. destruct (Nat.ltb_spec c 0); [lia|]. now rewrite Nat.sub_0_r.
  - cbn [app beside]. rewrite width_cons in *. cbn [fst] in *. destruct (Nat.ltb_spec c w').
    + destruct (Nat.ltb_spec c (w' + width parts)); [reflexivity|lia].
    + rewrite IH by lia. destruct (Nat.ltb_spec (c - w') (width parts)), (Nat.ltb_spec c (w' + width parts)); try lia; [reflexivity|]. f_equal. lia.
Qed.
Lemma concat_fold : forall n K (parts : list (nat * fn)) (ts : list T) first (done : list (nat * fn)),
  Forall2 (fun t p => is_tensor t n (fst p) K (snd p)) ts parts -> is_tensor first n (width done) K (beside done) ->
  exists u, fold_left (fun acc next => do acc <- acc; concat_wide acc next) ts (Ok first) = Ok u /\ is_tensor u n (width (done ++ parts)) K (beside (done ++ parts)).
Proof.
  intros n K parts. induction parts as [|[w f] parts IH]; intros ts first done H Hf; inversion H as [|t ? ts' ? Ht Hts]; subst.
  - exists first. rewrite app_nil_r. now split.
  - cbn [fst snd] in Ht. cbn [fold_left obind]. assert (E : exists v, concat_wide first t = Ok v /\ is_tensor v n (width (done ++ [(w, f)])) K (beside (done ++ [(w, f)]))).
    { destruct Hf as (F1 & F2 & F3 & F4), Ht as (T1 & T2 & T3 & T4). unfold concat_wide. rewrite F1, T1, Nat.eqb_refl. eexists. split; [reflexivity|].
      assert (W : width (done ++ [(w, f)]) = (width done + w)%nat) by (unfold width; rewrite map_app, list_sum_app; cbn; lia).
      repeat split; cbn [rows cols chans get]; try assumption; [rewrite W; lia|]. intros i j l Hi Hj Hl. rewrite W in Hj. rewrite beside_app by exact Hj. rewrite F2.
      destruct (Nat.ltb_spec j (width done)); [apply F4; auto|apply T4; auto; lia]. }
    destruct E as (v & Ev & Hv). rewrite Ev. destruct (IH ts' v _ Hts Hv) as (u & Eu & Hu). exists u. split; [exact Eu|]. now rewrite <- app_assoc in Hu.
Qed.
Lemma concat_forward_ok : forall n K (parts : list (nat * fn)) (ts : list T), (2 <= length parts)%nat ->
  Forall2 (fun t p => is_tensor t n (fst p) K (snd p)) ts parts ->
  exists u, concat_forward ts = Ok u /\ is_tensor u n (width parts) K (beside parts).
Proof.
  intros n K parts ts Hl H. destruct H as [|a [wa fa] ts parts Ha H]; [cbn in Hl; lia|]. destruct H as [|b [wb fb] ts parts Hb H]; [cbn in Hl; lia|].
  cbn [fst snd] in *. unfold concat_forward.
  assert (B : is_tensor a n (width [(wa, fa)]) K (beside [(wa, fa)])).
  { destruct Ha as (H1 & H2 & H3 & H4). unfold width. cbn [map fst list_sum fold_right]. rewrite Nat.add_0_r. repeat split; auto. intros i j l Hi Hj Hl'. cbn [beside]. destruct (Nat.ltb_spec j wa); [auto|lia]. }
  destruct (concat_fold n K ((wb, fb) :: parts) (b :: ts) a [(wa, fa)]) as (u & Eu & Hu); [constructor; auto|exact B|].
  cbn [fold_left obind] in Eu. exists u. split; [|exact Hu]. destruct (concat_wide a b) eqn:E; cbn [obind]; [exact Eu| |].
  - exfalso. clear - Eu. assert (G : forall l, fold_left (fun acc next => do acc <- acc; concat_wide acc next) l (@Throw T) = Throw) by (induction l; auto). rewrite G in Eu. discriminate.
  - exfalso. clear - Eu. assert (G : forall l, fold_left (fun acc next => do acc <- acc; concat_wide acc next) l (@UB T) = UB) by (induction l; auto). rewrite G in Eu. discriminate.
Qed.
Lemma concat_backward_ok : forall n K (parts : list (nat * fn)) start (e : T) M (ep : fn), is_tensor e n M K ep -> (start + width parts <= M)%nat ->
  Forall (fun p => (0 < fst p)%nat) parts ->
  exists bs errs, concat_backward (map (fun p => (n, fst p, K)) parts) start e = Ok bs /\
    Forall2 (fun b q => is_tensor b n (fst q) K (snd q)) bs errs /\ map fst errs = map fst parts /\
    forall r c k, (c < width parts)%nat -> beside errs r c k = ep r (start + c)%nat k.
Proof.
  intros n K parts. induction parts as [|[w f] parts IH]; intros start e M ep He Hw Hp.
  - exists [], []. cbn [map concat_backward]. repeat split; auto. intros r c k Hc. unfold width in Hc. cbn in Hc. lia.
  - inversion Hp as [|? ? Hw0 Hp']; subst. cbn [fst] in Hw0. rewrite width_cons in Hw. cbn [fst] in Hw. cbn [map concat_backward fst].
    destruct He as (H1 & H2 & H3 & H4). unfold window. rewrite H2. destruct (Nat.leb_spec (start + w) start); [lia|]. destruct (Nat.ltb_spec M (start + w)); [lia|]. cbn [orb obind].
    destruct (IH (start + w)%nat e M ep) as (bs & errs & E & B & C & D); [repeat split; auto|lia|exact Hp'|].
    rewrite E. cbn [obind]. eexists. exists ((w, fun r c k => ep r (start + c)%nat k) :: errs). split; [reflexivity|]. split; [|split].
    + constructor; [|exact B]. cbn [fst snd]. repeat split; cbn [rows cols chans get]; auto; [lia|]. intros i j l Hi Hj Hl. destruct (Nat.leb_spec (start + w - start) j); [lia|]. rewrite H4 by lia. now rewrite Nat.add_comm.
    + cbn [map fst]. now rewrite C.
    + intros r c k Hc. rewrite width_cons in Hc. cbn [fst] in Hc. cbn [beside]. destruct (Nat.ltb_spec c w); [reflexivity|]. rewrite D by lia. f_equal. lia.
Qed.
Lemma dot_beside : forall n K (errs parts : list (nat * fn)), map fst errs = map fst parts ->
  dot n (width parts) K (beside errs) (beside parts) = total (fun p => dot n (fst (fst p)) K (snd (fst p)) (snd (snd p))) (combine errs parts).
Proof.
  intros n K errs. induction errs as [|[w e] errs IH]; intros [|[w' f] parts] H; try discriminate.
  - cbn. unfold dot. apply (Sum_zero rops Ropp rring). intros k _. apply (Sum_zero rops Ropp rring). intros r _. reflexivity.
  - cbn [map fst] in H. injection H as -> H. cbn [combine]. unfold total in *. cbn [fold_right fst snd]. rewrite <- (IH _ H). rewrite width_cons. cbn [fst].
    unfold dot. rewrite <- SumR_add. apply SumR_ext. intros k _. rewrite <- SumR_add. apply SumR_ext. intros r _. rewrite (Sum_split rops Ropp rring). cbn [add rops]. f_equal.
    + apply SumR_ext. intros c Hc. cbn [beside]. destruct (Nat.ltb_spec c w'); [reflexivity|lia].
    + apply SumR_ext. intros c Hc. cbn [beside]. destruct (Nat.ltb_spec (w' + c) w'); [lia|]. now replace (w' + c - w')%nat with c by lia.
Qed.
