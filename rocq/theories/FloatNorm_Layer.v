(** Proofs about normalization of whole tensors, exact and in [float]. *)
From Coq Require Import List Arith Bool ZArith Reals Lia Lra.
From Flocq Require Import Core IEEE754.BinarySingleNaN IEEE754.Binary IEEE754.Bits.
From Verif Require Import Outcome Tensor_Model Tensor_Spec F32_Model F32_Proofs Reduce_Model Activation_Model Layer_Model FloatNet_Model FloatNet_Spec FloatNet_Proofs FloatSoft_Proofs FloatAct_Proofs FloatNet_Props FloatOpt_Model FloatOpt_Proofs FloatRun_Spec FloatLayer_Proofs FloatNorm_Spec FloatNorm_Proofs.
From Verif Require Reduce_Spec Reduce_Proofs Activation_Proofs Layer_Props.
Import ListNotations.
Local Open Scope R_scope.

Lemma forall2_concat : forall A B (P : A -> B -> Prop) l l', Forall2 (Forall2 P) l l' -> Forall2 P (concat l) (concat l').
Proof. intros A B P l l' H. induction H as [|a b l l' H H' IH]; cbn [concat]; [constructor|]. now apply Forall2_app. Qed.
Lemma forall2_map : forall A B C (P : A -> B -> Prop) (f : C -> A) (g : C -> B) l, (forall x, In x l -> P (f x) (g x)) -> Forall2 P (map f l) (map g l).
Proof. intros A B C P f g l. induction l as [|x l IH]; intros H; cbn [map]; constructor; [apply H; now left|]. apply IH. intros y Hy. apply H. now right. Qed.
Lemma elements_both : forall A B (P : A -> B -> Prop) n m K f g, (forall r c k, (r < n)%nat -> (c < m)%nat -> (k < K)%nat -> P (f r c k) (g r c k)) -> Forall2 P (Reduce_Spec.elements n m K f) (Reduce_Spec.elements n m K g).
Proof.
  intros A B P n m K f g H. unfold Reduce_Spec.elements. apply forall2_concat, forall2_map. intros k Hk. apply forall2_concat, forall2_map. intros r Hr. apply forall2_map. intros c Hc. apply in_seq in Hk, Hr, Hc. apply H; lia.
Qed.

(** ** The exact mean and deviation *)
Lemma exact_spread : forall (t : T) r c k f, is_tensor t r c k f -> exists mean M2,
  fold_left (spread (INR (r * c * k))) (Reduce_Spec.elements r c k f) (0, 0) = (mean, M2) /\
  standardize_parameters t = Ok (mean, if Req_EM_T (M2 / INR (r * c * k)) 0 then 1 else sqrt (M2 / INR (r * c * k))).
Proof.
  intros t r c k f H. destruct (Layer_Props.parameters_fold t r c k f H) as (mean & M2 & Ef & Ep). exists mean, M2. split; [|exact Ep]. rewrite <- Ef. generalize (Reduce_Spec.elements r c k f), (0, 0). intros l. induction l as [|v l IH]; intros [m q]; [reflexivity|]. apply IH.
Qed.
Lemma spread_large : forall r c k f mean M2, (2 <= r * c * k)%nat -> fold_left (spread (INR (r * c * k))) (Reduce_Spec.elements r c k f) (0, 0) = (mean, M2) ->
  let N := INR (r * c * k) in 0 <= M2 / N /\ mean * mean <= 2 * (M2 / N) /\ forall i j l, (i < r)%nat -> (j < c)%nat -> (l < k)%nat -> f i j l * f i j l <= 8 * N * (M2 / N).
Proof.
  intros r c k f mean M2 Hn E N. assert (HN : 2 <= N) by (unfold N; replace 2 with (INR 2) by (cbn; lra); apply le_INR; exact Hn).
  pose proof (spread_grows N (Reduce_Spec.elements r c k f) 0 0 0 HN (Rle_refl 0)) as H. cbn [plus] in H. rewrite Reduce_Proofs.elements_length in H. fold N in H. fold N in E. rewrite E in H. specialize (H ltac:(cbn [INR]; lra) (Rle_refl N)). destruct H as (H1 & H2 & H3).
  assert (Hc : 1 / 2 <= 1 - / N) by (assert (/ N <= / 2) by (apply Rinv_le_contravar; lra); lra). assert (EN : N * (M2 / N) = M2) by (field; lra). set (s := M2 / N) in *. assert (Ps : 0 <= s) by (unfold s; apply Rmult_le_pos; [lra|left; apply Rinv_0_lt_compat; lra]).
  split; [exact Ps|]. split.
  - assert (A : 1 / 2 * ((N * mean) * (N * mean)) <= (1 - / N) * ((N * mean) * (N * mean))) by (apply Rmult_le_compat_r; [apply Rle_0_sqr|lra]). apply (Rmult_le_reg_l (N * N)); [apply Rmult_lt_0_compat; lra|]. replace (N * N * (mean * mean)) with ((N * mean) * (N * mean)) by ring. replace (N * N * (2 * s)) with (2 * (N * (N * s))) by ring. rewrite EN. lra.
  - intros i j l Hi Hj Hl. specialize (H3 (f i j l)). assert (In (f i j l) (Reduce_Spec.elements r c k f)) by (apply Reduce_Proofs.elements_in; exists i, j, l; auto). specialize (H3 H). assert (A : 1 / 2 * (f i j l * f i j l) <= (1 - / N) * (f i j l * f i j l)) by (apply Rmult_le_compat_r; [apply Rle_0_sqr|lra]). replace (8 * N * s) with (8 * (N * s)) by ring. rewrite EN. lra.
Qed.
Lemma square_le : forall x y, 0 <= y -> x * x <= y * y -> Rabs x <= y.
Proof. intros x y H1 H2. rewrite <- (Rabs_pos_eq y) by assumption. apply Rsqr_le_abs_0. exact H2. Qed.
(** What comes out is never larger than four times the root of the number of elements. *)
Lemma exact_output : forall N m s v, 2 <= N -> 0 < s -> m * m <= 2 * s -> v * v <= 8 * N * s -> Rabs ((v - m) / sqrt s) <= 4 * sqrt N.
Proof.
  intros N m s v HN Hs Hm Hv. pose proof (sqrt_lt_R0 s Hs) as P. pose proof (sqrt_sqrt s ltac:(lra)) as Es. set (d := sqrt s) in *. pose proof (sqrt_lt_R0 N ltac:(lra)) as PN. pose proof (sqrt_sqrt N ltac:(lra)) as EN. set (w := sqrt N) in *. clearbody d w. subst s N.
  assert (A : Rabs m <= w * d). { apply square_le; [apply Rmult_le_pos; lra|]. replace (w * d * (w * d)) with (w * w * (d * d)) by ring. apply Rle_trans with (2 * (d * d)); [lra|]. apply Rmult_le_compat_r; [apply Rle_0_sqr|lra]. }
  assert (B : Rabs v <= 3 * w * d). { apply square_le; [repeat apply Rmult_le_pos; lra|]. replace (3 * w * d * (3 * w * d)) with (9 * (w * w * (d * d))) by ring. assert (0 <= w * w * (d * d)) by (apply Rmult_le_pos; apply Rle_0_sqr). lra. }
  unfold Rdiv. rewrite Rabs_mult, (Rabs_pos_eq (/ d)) by (left; now apply Rinv_0_lt_compat). apply (Rmult_le_reg_r d); [exact P|]. rewrite Rmult_assoc, Rinv_l, Rmult_1_r by lra. apply Rabs_le_inv in A. apply Rabs_le_inv in B. apply Rabs_le. lra.
Qed.
Lemma normalization_size : forall x r c k f, is_tensor x r c k f -> exists t p g, normalization_forward [x] = Ok (t, p) /\ is_tensor t r c k g /\ forall i j l, (i < r)%nat -> (j < c)%nat -> (l < k)%nat -> Rabs (g i j l) <= 4 * sqrt (INR (r * c * k)).
Proof.
  intros x r c k f H. destruct (exact_spread x r c k f H) as (mean & M2 & Ef & Ep). unfold normalization_forward. rewrite Ep. cbn [obind fst snd]. eexists _, _, _. split; [reflexivity|]. split; [exact (Activation_Proofs.transform_tensor _ _ _ _ _ _ H)|]. intros i j l Hi Hj Hl. cbv beta.
  assert (P0 : 0 <= 4 * sqrt (INR (r * c * k))) by (pose proof (sqrt_pos (INR (r * c * k))); lra). destruct (le_lt_dec 2 (r * c * k)) as [L|L].
  - destruct (spread_large _ _ _ _ _ _ L Ef) as (A1 & A2 & A3). cbv zeta in *. set (N := INR (r * c * k)) in *. assert (HN : 2 <= N) by (unfold N; replace 2 with (INR 2) by (cbn; lra); apply le_INR; exact L). specialize (A3 i j l Hi Hj Hl). destruct (Req_EM_T (M2 / N) 0) as [Z|Z].
    + rewrite Z in *. rewrite Rmult_0_r in A2, A3. assert (Em : mean = 0) by (apply Rsqr_0_uniq; unfold Rsqr; pose proof (Rle_0_sqr mean) as Q; unfold Rsqr in Q; lra). assert (Ev : f i j l = 0) by (apply Rsqr_0_uniq; unfold Rsqr; pose proof (Rle_0_sqr (f i j l)) as Q; unfold Rsqr in Q; lra). rewrite Em, Ev. replace ((0 - 0) / 1) with 0 by field. now rewrite Rabs_R0.
    + apply exact_output; try assumption. lra.
  - assert (r = 1 /\ c = 1 /\ k = 1)%nat as (-> & -> & ->). { destruct r as [|[|r]], c as [|[|c]], k as [|[|k]]; cbn in L; try lia; auto. }
    assert (i = 0 /\ j = 0 /\ l = 0)%nat as (-> & -> & ->) by lia. cbn [Reduce_Spec.elements seq map concat app fold_left] in Ef. change (1 * 1 * 1)%nat with 1%nat in *. change (INR 1) with 1 in *. unfold spread in Ef. injection Ef as <- <-. match goal with |- context [Req_EM_T ?a 0] => replace a with 0 by field end. destruct (Req_EM_T 0 0) as [_|Z]; [|contradiction]. replace (f 0%nat 0%nat 0%nat - (0 + (f 0%nat 0%nat 0%nat - 0) / 1)) with 0 by field. unfold Rdiv. rewrite Rmult_0_l, Rabs_R0. exact P0.
Qed.

(** ** Mean and deviation in [float] *)
Lemma float_spread_is : forall (y : FT) r c k g, is_tensor y r c k g ->
  float_parameters y = let s := fold_left (float_spread (double_of (r * c * k))) (Reduce_Spec.elements r c k g) (double0, double0) in
    Ok (narrow (fst s), if deq (ddiv (snd s) (double_of (r * c * k))) double0 then float1 else narrow (dsqrt (ddiv (snd s) (double_of (r * c * k))))).
Proof.
  intros y r c k g H. unfold float_parameters. assert (Es : size y = (r * c * k)%nat) by (destruct H as (H1 & H2 & H3 & _); unfold size; congruence).
  rewrite (Reduce_Proofs.loop_flat y r c k g (float_spread (double_of (size y))) (fun s v => Ok (float_spread (double_of (size y)) s v)) (double0, double0) H (fun _ _ => eq_refl)). rewrite Es. cbn [obind]. destruct (fold_left _ _ _) as [m q]. reflexivity.
Qed.

Lemma normalization_near : forall x y r c k f w i o, is_tensor x r c k f -> near i x y -> (exists a j l, (a < r)%nat /\ (j < c)%nat /\ (l < k)%nat /\ w <= Rabs (f a j l)) -> normalization_bounds (r * c * k) w i o ->
  exists t p u, normalization_forward [x] = Ok (t, p) /\ float_normalization [y] = Ok u /\ near o t u.
Proof.
  intros x y r c k f w i o Tx Nx (a & j & l & Ha & Hj & Hl & Hw) Hb. destruct (near_split _ _ _ _ _ _ _ Tx Nx) as [Ny Hy]. destruct (numbers_tensor _ _ _ _ _ Ny) as [Ty Hn]. unfold normalization_bounds in Hb. cbv zeta in Hb. set (n := (r * c * k)%nat) in *. set (B := largest i) in *. set (e := error i) in *. set (Y := B + e) in *. set (sigma := w / sqrt (8 * INR n)) in *.
  rewrite double_value in Hb. change (10 * (Y * e) + 70 * / 9007199254740992 * (INR n * (Y * Y))) with (variance_error n e Y) in Hb. change (variance_error n e Y / (sigma * sigma)) with (relative n e Y sigma) in Hb. change ((3 * e + 12 * (unit_error * Y) + 3 * (Y * relative n e Y sigma)) / sigma) with (normalization_error n e Y sigma) in Hb.
  destruct Hb as (HN & HY & Hs & Hv & Ho & He').
  assert (P60 : 0 < / 2 ^ 60) by (apply Rinv_0_lt_compat; apply pow_lt; lra). assert (Bn : (2 <= n)%nat). { apply INR_le. replace (INR 2) with 2 by (cbn; lra). lra. }
  assert (HB : 0 <= B) by (eapply Rle_trans; [apply Rabs_pos|apply (Hy a j l Ha Hj Hl)]). assert (HE : 0 <= e) by (eapply Rle_trans; [apply Rabs_pos|apply (Hy a j l Ha Hj Hl)]).
  assert (Q8 : 1 <= sqrt (8 * INR n)) by (rewrite <- sqrt_1; apply sqrt_le_1; lra). assert (Ew : w = sigma * sqrt (8 * INR n)) by (unfold sigma; field; lra).
  assert (Sw : sigma <= w) by (rewrite Ew; rewrite <- (Rmult_1_r sigma) at 1; apply Rmult_le_compat_l; lra). assert (SY : sigma <= Y) by (pose proof (proj1 (Hy a j l Ha Hj Hl)); fold B in H; unfold Y; lra).
  assert (Range : / 2 ^ 60 <= Y <= 2 ^ 60) by lra. assert (PYY : 0 <= INR n * (Y * Y)) by (apply Rmult_le_pos; [lra|apply Rle_0_sqr]). assert (PYe : 0 <= Y * e) by (apply Rmult_le_pos; lra).
  assert (Small : slip n e Y <= Y * Y). { apply Rle_trans with (variance_error n e Y); [unfold slip, variance_error; lra|]. assert (sigma * sigma <= Y * Y) by (apply Rmult_le_compat; lra). assert (0 <= Y * Y) by apply Rle_0_sqr. lra. }
  destruct (exact_spread x r c k f Tx) as (m & q & Ef & Ep). fold n in Ef, Ep.
  assert (Fo : follows n B e Y n (fold_left (float_spread (double_of n)) (Reduce_Spec.elements r c k (element y)) (double0, double0)) (m, q)).
  { rewrite <- Ef. pose proof (spread_run n B e Y HN HB HE eq_refl Range Small (Reduce_Spec.elements r c k (element y)) (Reduce_Spec.elements r c k f) 0 (double0, double0) (0, 0)) as H. rewrite Reduce_Proofs.elements_length in H. fold n in H. cbn [plus] in H. apply H; [lia|apply follows_start; assumption|]. apply elements_both. intros a' j' l' A1 A2 A3. destruct (Hn a' j' l' A1 A2 A3) as [N1 N2]. split; [exact N1|]. exact (Hy a' j' l' A1 A2 A3). }
  pose proof (float_spread_is y r c k (element y) Ty) as Efl. fold n in Efl. cbv zeta in Efl. destruct (fold_left (float_spread _) _ _) as [mh qh]. cbn [fst snd] in Efl.
  destruct (spread_large r c k f m q Bn Ef) as (L1 & L2 & L3). cbv zeta in L1, L2, L3. fold n in L1, L2, L3. assert (Ps : 0 < sigma) by lra.
  assert (Sv : sigma * sigma <= q / INR n). { specialize (L3 a j l Ha Hj Hl). assert (W2 : w * w <= f a j l * f a j l). { rewrite <- (Rabs_pos_eq (f a j l * f a j l)) by apply Rle_0_sqr. rewrite Rabs_mult. apply Rmult_le_compat; lra. } apply (Rmult_le_reg_l (8 * INR n)); [lra|]. replace (8 * INR n * (sigma * sigma)) with (w * w); [lra|]. rewrite Ew. replace (sigma * sqrt (8 * INR n) * (sigma * sqrt (8 * INR n))) with (sqrt (8 * INR n) * sqrt (8 * INR n) * (sigma * sigma)) by ring. now rewrite sqrt_sqrt by lra. }
  destruct (deviation_near n B e Y HN HB HE eq_refl Range Small sigma Hs Hv mh qh m q Fo Sv) as (D1 & D2 & D3 & D4 & D5 & D6). unfold normalization_forward, float_normalization. rewrite Ep, Efl, D1. cbn [obind fst snd].
  assert (Pv : 0 < q / INR n) by (pose proof (Rmult_lt_0_compat _ _ Ps Ps); lra). destruct (Req_EM_T (q / INR n) 0) as [Z|_]; [lra|]. eexists _, _, _. split; [reflexivity|]. split; [reflexivity|].
  assert (Sd : sigma <= sqrt (q / INR n)) by (rewrite <- (sqrt_square sigma) by lra; apply sqrt_le_1; try lra; apply Rle_0_sqr). assert (Bm : Rabs m <= B) by apply Fo.
  eapply near_join; [exact (Activation_Proofs.transform_tensor _ _ _ _ _ _ Tx)| |].
  - instantiate (1 := fun a j l => number (fdiv (fsub (element y a j l) (narrow mh)) (narrow (dsqrt (ddiv qh (double_of n)))))). destruct Ty as (E1 & E2 & E3 & E4). split; [exact E1|]. split; [exact E2|]. split; [exact E3|]. intros a' j' l' A1 A2 A3. eexists. cbn [transform get]. rewrite (E4 a' j' l' A1 A2 A3). cbn [obind]. split; [reflexivity|]. split; [|reflexivity]. destruct (Hn a' j' l' A1 A2 A3) as [N1 N2]. destruct (Hy a' j' l' A1 A2 A3) as [B1 B2].
    apply (element_near n B e Y HN HB HE eq_refl Range sigma Hs Hv (narrow mh) _ m (sqrt (q / INR n)) _ (f a' j' l')); try assumption. now split.
  - intros a' j' l' A1 A2 A3. destruct (Hn a' j' l' A1 A2 A3) as [N1 N2]. destruct (Hy a' j' l' A1 A2 A3) as [B1 B2]. split.
    + eapply Rle_trans; [|exact Ho]. apply exact_output; try assumption; [lra|]. now apply L3.
    + eapply Rle_trans; [|exact He']. apply (element_near n B e Y HN HB HE eq_refl Range sigma Hs Hv (narrow mh) _ m (sqrt (q / INR n)) _ (f a' j' l')); try assumption. now split.
Qed.
