(** Lemmas for the loss functions. *)
From Coq Require Import List Arith Bool Lia Reals Lra.
From Coquelicot Require Import Coquelicot.
From Verif Require Import Outcome Tensor_Model Tensor_Spec Algebra_Proofs MatMul_Proofs Scaling_Spec Scaling_Proofs Reduce_Model Reduce_Spec Reduce_Proofs Reduce_Props
  Activation_Model Activation_Proofs Loss_Model Loss_Spec.
Import ListNotations.
Local Open Scope R_scope.

(** ** Sums over the positions of a tensor *)
Definition positions (n m K : nat) : list (nat * nat * nat) := elements n m K (fun r c k => (r, c, k)).
Lemma elements_positions : forall {A} n m K (f : nat -> nat -> nat -> A), elements n m K f = map (fun '(r, c, k) => f r c k) (positions n m K).
Proof. intros A n m K f. unfold positions. now rewrite <- (elements_map n m K (fun r c k => (r, c, k)) (fun '(r, c, k) => f r c k)). Qed.
Lemma positions_in : forall n m K r c k, In (r, c, k) (positions n m K) <-> (r < n /\ c < m /\ k < K)%nat.
Proof.
  intros n m K r c k. unfold positions. rewrite elements_in. split.
  - intros (r' & c' & k' & Hr & Hc & Hk & E). injection E as -> -> ->. auto.
  - intros (Hr & Hc & Hk). exists r, c, k. auto.
Qed.
Lemma elements_ext : forall {A} n m K (f g : nat -> nat -> nat -> A), (forall r c k, (r < n)%nat -> (c < m)%nat -> (k < K)%nat -> f r c k = g r c k) ->
  elements n m K f = elements n m K g.
Proof.
  intros A n m K f g H. rewrite !elements_positions. apply map_ext_in. intros [[r c] k] Hin. apply positions_in in Hin as (Hr & Hc & Hk). auto.
Qed.
Lemma sum_map_le : forall {A} (l : list A) (a b : A -> R), (forall x, In x l -> a x <= b x) -> Scaling_Spec.sum (map a l) <= Scaling_Spec.sum (map b l).
Proof.
  intros A l a b. unfold Scaling_Spec.sum. induction l as [|x l IH]; intros H; cbn [map fold_right]; [lra|].
  specialize (IH (fun y Hy => H y (or_intror Hy))). specialize (H x (or_introl eq_refl)). lra.
Qed.
Lemma sum_map_lt : forall {A} (l : list A) (a b : A -> R), (forall x, In x l -> a x <= b x) -> (exists x, In x l /\ a x < b x) ->
  Scaling_Spec.sum (map a l) < Scaling_Spec.sum (map b l).
Proof.
  intros A l a b. unfold Scaling_Spec.sum. induction l as [|x l IH]; intros H (y & Hy & Hlt); [destruct Hy|]. cbn [map fold_right].
  pose proof (sum_map_le l a b (fun z Hz => H z (or_intror Hz))) as Hle. unfold Scaling_Spec.sum in Hle.
  pose proof (H x (or_introl eq_refl)) as Hx. destruct Hy as [->|Hy]; [lra|].
  specialize (IH (fun z Hz => H z (or_intror Hz)) (ex_intro _ y (conj Hy Hlt))). lra.
Qed.
Lemma sum_elements_le : forall n m K f g, (forall r c k, (r < n)%nat -> (c < m)%nat -> (k < K)%nat -> f r c k <= g r c k) ->
  Scaling_Spec.sum (elements n m K f) <= Scaling_Spec.sum (elements n m K g).
Proof.
  intros n m K f g H. rewrite !elements_positions. apply sum_map_le. intros [[r c] k] Hin. apply positions_in in Hin as (Hr & Hc & Hk). auto.
Qed.
Lemma sum_elements_lt : forall n m K f g, (forall r c k, (r < n)%nat -> (c < m)%nat -> (k < K)%nat -> f r c k <= g r c k) ->
  (exists r c k, (r < n)%nat /\ (c < m)%nat /\ (k < K)%nat /\ f r c k < g r c k) ->
  Scaling_Spec.sum (elements n m K f) < Scaling_Spec.sum (elements n m K g).
Proof.
  intros n m K f g H (r & c & k & Hr & Hc & Hk & Hlt). rewrite !elements_positions. apply sum_map_lt.
  - intros [[r' c'] k'] Hin. apply positions_in in Hin as (Hr' & Hc' & Hk'). auto.
  - exists (r, c, k). split; [apply positions_in; auto|exact Hlt].
Qed.
Lemma sum_zero_elements : forall n m K, Scaling_Spec.sum (elements n m K (fun _ _ _ => 0)) = 0.
Proof.
  intros n m K. rewrite elements_positions. generalize (positions n m K). intros l. unfold Scaling_Spec.sum.
  induction l as [|[[r c] k] l IH]; [reflexivity|]. cbn [map fold_right]. rewrite IH. ring.
Qed.
Lemma sum_elements_nonneg : forall n m K f, (forall r c k, (r < n)%nat -> (c < m)%nat -> (k < K)%nat -> 0 <= f r c k) -> 0 <= Scaling_Spec.sum (elements n m K f).
Proof. intros n m K f H. rewrite <- (sum_zero_elements n m K). now apply sum_elements_le. Qed.
Lemma sum_elements_zero : forall n m K f, (forall r c k, (r < n)%nat -> (c < m)%nat -> (k < K)%nat -> 0 <= f r c k) ->
  (Scaling_Spec.sum (elements n m K f) = 0 <-> forall r c k, (r < n)%nat -> (c < m)%nat -> (k < K)%nat -> f r c k = 0).
Proof.
  intros n m K f H. split.
  - intros E r c k Hr Hc Hk. pose proof (H r c k Hr Hc Hk) as Hp. destruct (Req_dec (f r c k) 0) as [G|G]; [exact G|exfalso].
    rewrite <- (sum_zero_elements n m K) in E.
    assert (Hlt : exists r c k, (r < n)%nat /\ (c < m)%nat /\ (k < K)%nat /\ 0 < f r c k) by (exists r, c, k; repeat split; try assumption; lra).
    pose proof (sum_elements_lt n m K (fun _ _ _ => 0) f H Hlt). lra.
  - intros E. rewrite (elements_ext n m K f (fun _ _ _ => 0) E). apply sum_zero_elements.
Qed.

(** ** One coordinate at a time *)
Lemma at_position_here : forall g r0 c0 k0 x, at_position g r0 c0 k0 x r0 c0 k0 = x.
Proof. intros. unfold at_position. now rewrite !Nat.eqb_refl. Qed.
Lemma at_position_there : forall g r0 c0 k0 x r c k, (r, c, k) <> (r0, c0, k0) -> at_position g r0 c0 k0 x r c k = g r c k.
Proof.
  intros g r0 c0 k0 x r c k H. unfold at_position. destruct (_ && _ && _)%bool eqn:E; [|reflexivity]. exfalso. apply H.
  rewrite !andb_true_iff, !Nat.eqb_eq in E. destruct E as [[-> ->] ->]. reflexivity.
Qed.
Lemma positions_index : forall n m K i d, (i < n * m * K)%nat ->
  let p := nth i (positions n m K) d in i = (snd p * (n * m) + (fst (fst p) * m + snd (fst p)))%nat.
Proof.
  intros n m K i d Hi. cbv zeta. assert (Hm : (m <> 0)%nat) by (intros ->; lia). assert (Hn : (n <> 0)%nat) by (intros ->; lia).
  assert (HK : (K <> 0)%nat) by (intros ->; lia). assert (Hnm : (n * m <> 0)%nat) by (intros E; apply Nat.eq_mul_0 in E; tauto).
  pose proof (Nat.div_mod i (n * m) Hnm) as E1. pose proof (Nat.mod_upper_bound i (n * m) Hnm) as B1.
  pose proof (Nat.div_mod (i mod (n * m)) m Hm) as E2. pose proof (Nat.mod_upper_bound (i mod (n * m)) m Hm) as B2.
  assert (Hk : (i / (n * m) < K)%nat) by (apply Nat.div_lt_upper_bound; lia).
  assert (Hr : (i mod (n * m) / m < n)%nat) by (apply Nat.div_lt_upper_bound; lia).
  pose proof (elements_nth n m K (fun r c k => (r, c, k)) d _ _ _ Hr B2 Hk) as E. fold (positions n m K) in E.
  rewrite (Nat.mul_comm (i mod (n * m) / m) m), <- E2, (Nat.mul_comm (i / (n * m))), <- E1 in E. rewrite E. cbn [fst snd].
  rewrite (Nat.mul_comm (i mod (n * m) / m) m), <- E2, (Nat.mul_comm (i / (n * m))), <- E1. reflexivity.
Qed.
Lemma positions_NoDup : forall n m K, NoDup (positions n m K).
Proof.
  intros n m K. apply (NoDup_nth _ (0, 0, 0)%nat). intros i j Hi Hj E. unfold positions in Hi, Hj. rewrite elements_length in Hi, Hj.
  rewrite (positions_index n m K i (0, 0, 0)%nat Hi), (positions_index n m K j (0, 0, 0)%nat Hj), E. reflexivity.
Qed.
Lemma sum_one : forall {A} (l : list A) (a : A) (h : R -> A -> R) (d x : R), NoDup l -> In a l ->
  (forall b, In b l -> b <> a -> forall x y, h x b = h y b) -> is_derive (fun x => h x a) x d ->
  is_derive (fun x => Scaling_Spec.sum (map (h x) l)) x d.
Proof.
  intros A l a h d x. unfold Scaling_Spec.sum.
  assert (Const : forall l, (forall b, In b l -> forall x y, h x b = h y b) -> is_derive (fun x => fold_right Rplus 0 (map (h x) l)) x 0).
  { clear l. intros l H. apply (is_derive_ext (fun _ => fold_right Rplus 0 (map (h x) l))).
    - intros y. f_equal. apply map_ext_in. intros b Hb. now apply H.
    - apply @is_derive_const. }
  induction l as [|b l IH]; intros ND Hin Hc Hd; [destruct Hin|]. inversion ND as [|? ? Hb NDl]; subst. cbn [map fold_right]. destruct Hin as [->|Hin].
  - replace d with (plus d 0) by (unfold plus; cbn; ring).
    apply (@is_derive_plus R_AbsRing R_NormedModule (fun x => h x a) (fun x => fold_right Rplus 0 (map (h x) l))); [exact Hd|]. apply Const.
    intros c Hc'. apply Hc; [now right|]. intros ->. contradiction.
  - replace d with (plus 0 d) by (unfold plus; cbn; ring).
    apply (@is_derive_plus R_AbsRing R_NormedModule (fun x => h x b) (fun x => fold_right Rplus 0 (map (h x) l))).
    + apply (is_derive_ext (fun _ => h x b)); [|apply @is_derive_const]. intros y. apply Hc; [now left|]. intros ->. contradiction.
    + apply IH; auto. intros c Hc'. apply Hc. now right.
Qed.
Lemma sum_partial : forall n m K r0 c0 k0 g (l : nat -> nat -> nat -> R -> R) d, (r0 < n)%nat -> (c0 < m)%nat -> (k0 < K)%nat ->
  is_derive (l r0 c0 k0) (g r0 c0 k0) d ->
  is_derive (fun x => Scaling_Spec.sum (elements n m K (fun r c k => l r c k (at_position g r0 c0 k0 x r c k)))) (g r0 c0 k0) d.
Proof.
  intros n m K r0 c0 k0 g l d Hr Hc Hk Hd.
  apply (is_derive_ext (fun x => Scaling_Spec.sum (map (fun '(r, c, k) => l r c k (at_position g r0 c0 k0 x r c k)) (positions n m K)))).
  { intros x. now rewrite (elements_positions n m K (fun r c k => l r c k (at_position g r0 c0 k0 x r c k))). }
  apply (sum_one _ (r0, c0, k0)).
  - apply positions_NoDup.
  - apply positions_in. auto.
  - intros [[r c] k] _ Hne x y. now rewrite !at_position_there.
  - cbv beta iota. eapply is_derive_ext; [|exact Hd]. intros x. now rewrite at_position_here.
Qed.

(** ** Shapes of the views *)
Lemma pointwise_tensor : forall h (a b : tensor R) n m K f g, is_tensor a n m K f -> is_tensor b n m K g ->
  exists u, pointwise h a b = Ok u /\ is_tensor u n m K (fun r c k => h (f r c k) (g r c k)).
Proof.
  intros h a b n m K f g (A1 & A2 & A3 & HA) (B1 & B2 & B3 & HB). unfold pointwise, same_shape.
  rewrite A1, A2, A3, B1, B2, B3, !Nat.eqb_refl. cbn [andb]. eexists. split; [reflexivity|]. unfold is_tensor. cbn [rows cols chans get].
  repeat split; auto. intros i j l Hi Hj Hl. rewrite HA, HB by assumption. reflexivity.
Qed.
Lemma scaled_tensor : forall (t : tensor R) s n m K f, is_tensor t n m K f -> is_tensor (scalar_multiply rops t s) n m K (fun r c k => s * f r c k).
Proof.
  intros t s n m K f (H1 & H2 & H3 & H). unfold is_tensor, scalar_multiply. cbn [rows cols chans get]. repeat split; auto.
  intros i j l Hi Hj Hl. rewrite H by assumption. reflexivity.
Qed.
(** The select view gives its second argument whatever the mask. *)
Lemma select_tensor : forall (mask above below : tensor R) n m K f g, is_tensor mask n m K f -> is_tensor above n m K g ->
  is_tensor (masked_select rops mask above below 0) n m K g.
Proof.
  intros mask above below n m K f g (M1 & M2 & M3 & M) (A1 & A2 & A3 & HA). unfold is_tensor, masked_select, trinary. cbn [rows cols chans get].
  repeat split; auto. intros i j l Hi Hj Hl. rewrite M, HA by assumption. cbn [obind]. destruct (gtb rops (f i j l) 0); reflexivity.
Qed.

(** ** The losses on elements *)
Section Losses.
Variables (truth prediction : tensor R) (n m K : nat) (f g : nat -> nat -> nat -> R).
Hypothesis Ht : is_tensor truth n m K f.
Hypothesis Hp : is_tensor prediction n m K g.

Lemma mse_elements : loss_of mse truth prediction = Ok (average (elements n m K (fun r c k => (g r c k - f r c k) ^ 2))) /\
  exists d, derivative_of mse truth prediction = Ok d /\ is_tensor d n m K (fun r c k => 2 * (g r c k - f r c k)).
Proof.
  unfold loss_of, derivative_of, mse. cbn [compute_error compute_loss compute_derivative].
  destruct (pointwise_tensor (sub rops) prediction truth n m K g f Hp Ht) as (u & E & Hu). unfold subtract_view. rewrite E. cbn [obind].
  split.
  - apply (mean_is_the_average _ n m K). now apply (transform_tensor (fun v => v ^ 2)).
  - eexists. split; [reflexivity|]. now apply (scaled_tensor u 2).
Qed.
Lemma mae_elements : loss_of mae truth prediction = Ok (average (elements n m K (fun r c k => Rabs (g r c k - f r c k)))) /\
  exists d, derivative_of mae truth prediction = Ok d /\ is_tensor d n m K (fun r c k => - (g r c k - f r c k)).
Proof.
  unfold loss_of, derivative_of, mae. cbn [compute_error compute_loss compute_derivative].
  destruct (pointwise_tensor (sub rops) prediction truth n m K g f Hp Ht) as (u & E & Hu). unfold subtract_view. rewrite E. cbn [obind].
  split.
  - apply (mean_is_the_average _ n m K). now apply (transform_tensor Rabs).
  - eexists. split; [reflexivity|]. eapply is_tensor_ext; [apply (scaled_tensor u (-1)); exact Hu|]. intros r c k _ _ _. cbn. ring.
Qed.
Lemma smae_elements : loss_of smae truth prediction = Ok (average (elements n m K (fun r c k => / 2 * (g r c k - f r c k) ^ 2))) /\
  exists d, derivative_of smae truth prediction = Ok d /\ is_tensor d n m K (fun r c k => g r c k - f r c k).
Proof.
  unfold loss_of, derivative_of, smae. cbn [compute_error compute_loss compute_derivative].
  destruct (pointwise_tensor (sub rops) prediction truth n m K g f Hp Ht) as (u & E & Hu). unfold subtract_view. rewrite E. cbn [obind].
  pose proof (transform_tensor Rabs u n m K _ Hu) as Ha. fold (absolute_view u) in Ha.
  pose proof (transform_tensor (fun v => if Rlt_dec v 1 then 1 else 0) _ n m K _ Ha) as Hm. fold (less_than_view (absolute_view u) 1) in Hm.
  split.
  - pose proof (scaled_tensor _ (/ 2 / 1) n m K _ (transform_tensor (fun v => v ^ 2) u n m K _ Hu)) as Hs. fold (square_view u) in Hs.
    pose proof (select_tensor _ _ (scalar_subtract (absolute_view u) (/ 2 * 1)) n m K _ _ Hm Hs) as Hr.
    rewrite (sum_tensor _ n m K _ Hr). cbn [obind]. destruct Hr as (R1 & R2 & R3 & _). unfold size. rewrite R1, R2, R3.
    unfold average. rewrite elements_length. do 3 f_equal. apply elements_ext. intros r c k _ _ _. cbn [sub rops]. field.
  - eexists. split; [reflexivity|]. eapply is_tensor_ext.
    + eapply select_tensor; [exact Hm|]. apply (scaled_tensor u (1 / 1)). exact Hu.
    + intros r c k _ _ _. cbn. field.
Qed.

Definition guard (x : R) : R := if Req_EM_T x 0 then epsilon else x.
Definition safe_ln (x : R) : R := ln (clamp x epsilon one_minus_epsilon).
Lemma epsilon_bounds : 0 < epsilon < / 2.
Proof. unfold epsilon. lra. Qed.
Lemma clamp_bounds : forall x, epsilon <= clamp x epsilon one_minus_epsilon <= 1.
Proof. intros x. pose proof epsilon_bounds. unfold clamp, one_minus_epsilon. destruct (Rlt_dec x epsilon), (Rlt_dec 1 x); lra. Qed.
Lemma clamp_mono : forall x y, x <= y -> clamp x epsilon one_minus_epsilon <= clamp y epsilon one_minus_epsilon.
Proof.
  intros x y H. pose proof epsilon_bounds. unfold clamp, one_minus_epsilon.
  destruct (Rlt_dec x epsilon), (Rlt_dec 1 x), (Rlt_dec y epsilon), (Rlt_dec 1 y); lra.
Qed.
Lemma clamp_idem : forall x, clamp (clamp x epsilon one_minus_epsilon) epsilon one_minus_epsilon = clamp x epsilon one_minus_epsilon.
Proof.
  intros x. pose proof (clamp_bounds x). unfold clamp at 1. unfold one_minus_epsilon in *.
  destruct (Rlt_dec _ epsilon); [lra|]. destruct (Rlt_dec 1 _); [lra|reflexivity].
Qed.
Lemma safe_ln_mono : forall x y, x <= y -> safe_ln x <= safe_ln y.
Proof.
  intros x y H. apply clamp_mono in H. unfold safe_ln. pose proof (clamp_bounds x). pose proof epsilon_bounds.
  destruct H as [H|H]; [left; apply ln_increasing; lra|rewrite H; right; reflexivity].
Qed.
Lemma safe_ln_one : forall x, 1 <= x -> safe_ln x = 0.
Proof.
  intros x H. unfold safe_ln, clamp, one_minus_epsilon. pose proof epsilon_bounds.
  destruct (Rlt_dec x epsilon); [lra|]. destruct (Rlt_dec 1 x); [apply ln_1|]. replace x with 1 by lra. apply ln_1.
Qed.
Lemma safe_ln_neg : forall x, safe_ln x <= 0.
Proof.
  intros x. pose proof (clamp_bounds x) as H. pose proof epsilon_bounds. unfold safe_ln. rewrite <- ln_1.
  destruct H as [H1 [H2|H2]]; [left; apply ln_increasing; lra|rewrite H2; right; reflexivity].
Qed.
Lemma safe_ln_low : forall x, x <= epsilon -> safe_ln x = ln epsilon.
Proof.
  intros x H. unfold safe_ln, clamp, one_minus_epsilon. pose proof epsilon_bounds.
  destruct (Rlt_dec x epsilon); [reflexivity|]. destruct (Rlt_dec 1 x); [lra|]. f_equal. lra.
Qed.
Lemma safe_ln_inside : forall x, epsilon <= x <= 1 -> safe_ln x = ln x.
Proof. intros x H. unfold safe_ln, clamp, one_minus_epsilon. destruct (Rlt_dec x epsilon); [lra|]. destruct (Rlt_dec 1 x); [lra|reflexivity]. Qed.

Lemma bce_elements : loss_of bce truth prediction =
    Ok (Scaling_Spec.sum (elements n m K (fun r c k => - (f r c k * safe_ln (g r c k) + (1 - f r c k) * safe_ln (1 - g r c k))))) /\
  exists d, derivative_of bce truth prediction = Ok d /\
    is_tensor d n m K (fun r c k => - (f r c k / guard (g r c k) - (1 - f r c k) / guard (1 - g r c k))).
Proof.
  unfold loss_of, derivative_of, bce. cbn [compute_error compute_loss compute_derivative]. cbv zeta.
  set (lp := log_view (clip_view prediction epsilon one_minus_epsilon)).
  set (lq := log_view (clip_view (scalar_subtract_from 1 prediction) epsilon one_minus_epsilon)).
  pose proof (transform_tensor (fun v => ln (clamp v epsilon one_minus_epsilon)) _ n m K _ (transform_tensor (fun v => clamp v epsilon one_minus_epsilon) _ n m K _ Hp)) as Hlp.
  change (is_tensor lp n m K (fun r c k => ln (clamp (clamp (g r c k) epsilon one_minus_epsilon) epsilon one_minus_epsilon))) in Hlp.
  pose proof (transform_tensor (fun v => 1 - v) _ n m K _ Hp) as Hq. fold (scalar_subtract_from 1 prediction) in Hq.
  pose proof (transform_tensor (fun v => ln (clamp v epsilon one_minus_epsilon)) _ n m K _ (transform_tensor (fun v => clamp v epsilon one_minus_epsilon) _ n m K _ Hq)) as Hlq.
  change (is_tensor lq n m K (fun r c k => ln (clamp (clamp (1 - g r c k) epsilon one_minus_epsilon) epsilon one_minus_epsilon))) in Hlq.
  pose proof (transform_tensor (fun v => 1 - v) _ n m K _ Ht) as Hnt. fold (scalar_subtract_from 1 truth) in Hnt.
  destruct (pointwise_tensor (mul rops) truth lp n m K _ _ Ht Hlp) as (a & Ea & Ha). unfold multiply_view. rewrite Ea. cbn [obind].
  destruct (pointwise_tensor (mul rops) _ lq n m K _ _ Hnt Hlq) as (b & Eb & Hb). rewrite Eb. cbn [obind].
  destruct (pointwise_tensor (add rops) a b n m K _ _ Ha Hb) as (s & Es & Hs). unfold add_view. rewrite Es. cbn [obind].
  split.
  - rewrite (sum_tensor _ n m K _ (scaled_tensor s (-1) n m K _ Hs)). do 2 f_equal. apply elements_ext. intros r c k _ _ _.
    cbn [add mul rops]. rewrite !clamp_idem. unfold safe_ln. ring.
  - unfold divide_view, subtract_view.
    destruct (pointwise_tensor (fun x y => div rops x (if eqb rops y (zero rops) then epsilon else y)) truth prediction n m K _ _ Ht Hp) as (d1 & E1 & H1).
    rewrite E1. cbn [obind].
    destruct (pointwise_tensor (fun x y => div rops x (if eqb rops y (zero rops) then epsilon else y)) _ _ n m K _ _ Hnt Hq) as (d2 & E2 & H2).
    rewrite E2. cbn [obind].
    destruct (pointwise_tensor (sub rops) d1 d2 n m K _ _ H1 H2) as (d3 & E3 & H3). rewrite E3. cbn [obind]. eexists. split; [reflexivity|].
    eapply is_tensor_ext; [apply (scaled_tensor d3 (-1)); exact H3|]. intros r c k _ _ _. cbn [add sub mul div eqb zero rops]. unfold guard.
    destruct (Req_EM_T (g r c k) 0), (Req_EM_T (1 - g r c k) 0); ring.
Qed.

Lemma cce_elements : loss_of cce truth prediction = Ok (Scaling_Spec.sum (elements n m K (fun r c k => - f r c k * safe_ln (g r c k)))) /\
  exists d, derivative_of cce truth prediction = Ok d /\ is_tensor d n m K (fun r c k => g r c k - f r c k).
Proof.
  unfold loss_of, derivative_of, cce. cbn [compute_error compute_loss compute_derivative]. cbv zeta.
  pose proof (scaled_tensor truth (-1) n m K _ Ht) as Hn.
  pose proof (transform_tensor (fun v => ln (clamp v epsilon one_minus_epsilon)) _ n m K _ Hp) as Hl. fold (log_view prediction) in Hl.
  destruct (pointwise_tensor (mul rops) _ _ n m K _ _ Hn Hl) as (u & E & Hu). unfold multiply_view. rewrite E. cbn [obind]. split.
  - rewrite (sum_tensor _ n m K _ Hu). do 2 f_equal. apply elements_ext. intros r c k _ _ _. cbn [mul rops]. unfold safe_ln. ring.
  - destruct (pointwise_tensor (sub rops) prediction truth n m K g f Hp Ht) as (d & Ed & Hd). exists d. split; [exact Ed|exact Hd].
Qed.
End Losses.
