(** C116: the losses and their derivatives, computed with [float]. *)
From Coq Require Import List Arith Bool ZArith Reals Lia Lra.
From Flocq Require Import Core IEEE754.BinarySingleNaN IEEE754.Binary IEEE754.Bits.
From Verif Require Import Outcome Tensor_Model Tensor_Spec F32_Model F32_Proofs Reduce_Model FloatNet_Model FloatNet_Spec FloatNet_Proofs FloatSoft_Proofs FloatAct_Proofs FloatNet_Props FloatOpt_Model FloatOpt_Spec FloatOpt_Proofs FloatLoss_Model FloatLoss_Spec FloatLoss_Proofs.
From Verif Require Import FloatRun_Spec.
From Verif Require Reduce_Spec Reduce_Proofs MatMul_Proofs Conv_Proofs FloatExp_Proofs FloatFaith_Proofs FloatAct_Props FloatOpt_Props.
Import ListNotations.
Local Open Scope R_scope.

Lemma twice_view : forall t r c k f s, is_tensor t r c k f -> is_tensor (scalar_multiply fops t s) r c k (fun i j l => fmul s (f i j l)).
Proof. intros t r c k f s H. exact (Conv_Proofs.scalar_tensor fops t r c k f s H). Qed.
Lemma pair_view : forall (h : F -> F -> F) (a b : tensor F) r c k f g, is_tensor a r c k f -> is_tensor b r c k g -> exists u, pointwise h a b = Ok u /\ is_tensor u r c k (fun i j l => h (f i j l) (g i j l)).
Proof. intros h a b r c k f g Ha Hb. exact (MatMul_Proofs.pointwise_element h a b r c k f g Ha Hb). Qed.

(** ** The derivatives of the squared error and of the categorical cross-entropy *)
(** They are [2 * (prediction - truth)] and [prediction - truth], rounded once; they have the right sign, and are 0 only where the
    prediction is the truth, however close the two are. *)
Theorem float_difference_derivatives : forall logf powf truth prediction r c k t p, is_tensor truth r c k t -> is_tensor prediction r c k p ->
  everywhere r c k (fun i j l => of_size (2 ^ 125) (t i j l) /\ of_size (2 ^ 125) (p i j l)) ->
  (exists d g, float_derivative_of (float_mse powf) truth prediction = Ok d /\ is_tensor d r c k g /\
    everywhere r c k (fun i j l => let exact := 2 * (number (p i j l) - number (t i j l)) in
      is_number (g i j l) /\ Rabs (number (g i j l) - exact) <= unit_error * Rabs exact /\ (0 < number (g i j l) <-> 0 < exact) /\ (number (g i j l) < 0 <-> exact < 0))) /\
  (exists d g, float_derivative_of (float_cce logf) truth prediction = Ok d /\ is_tensor d r c k g /\
    everywhere r c k (fun i j l => let exact := number (p i j l) - number (t i j l) in
      is_number (g i j l) /\ Rabs (number (g i j l) - exact) <= unit_error * Rabs exact /\ (0 < number (g i j l) <-> 0 < exact) /\ (number (g i j l) < 0 <-> exact < 0))).
Proof.
  intros logf powf truth prediction r c k t p Ht Hp B. destruct (pair_view fsub prediction truth r c k p t Hp Ht) as (u & Eu & Hu). split.
  - exists (scalar_multiply fops u (of_Z 2)), (fun i j l => fmul (of_Z 2) (fsub (p i j l) (t i j l))). split; [unfold float_derivative_of; cbn [float_error float_mse float_derivative]; unfold subtract_view; cbn [sub fops]; rewrite Eu; reflexivity|]. split; [exact (twice_view u r c k _ (of_Z 2) Hu)|].
    intros i j l Hi Hj Hl. destruct (B i j l Hi Hj Hl) as [Bt Bp]. destruct (difference_size _ _ Bp Bt) as (Nd & Vd & Sd). destruct (twice_exact _ Nd Sd) as [N V]. cbv zeta. split; [exact N|]. rewrite V, Vd.
    pose proof (off_abs _ _ _ (off_difference _ _ (number_format (p i j l)) (number_format (t i j l)))) as E. destruct (zero_sign _ _ (number_format (p i j l)) (number_format (t i j l))) as [Z1 Z2]. set (x := number (p i j l)) in *. set (y := number (t i j l)) in *. split; [|split].
    + rewrite <- Rmult_minus_distr_l, !Rabs_mult, (Rabs_pos_eq 2) by lra. lra.
    + split; intros Q; [assert (y < x) by (apply Z1; lra); lra|assert (0 < rnd (x - y)) by (apply Z1; lra); lra].
    + split; intros Q; [assert (x < y) by (apply Z2; lra); lra|assert (rnd (x - y) < 0) by (apply Z2; lra); lra].
  - destruct (pair_view fmul (scalar_multiply fops truth (of_Z (-1))) (float_log_view logf prediction) r c k _ _ (twice_view _ _ _ _ _ (of_Z (-1)) Ht) (transform_tensor (fun v => logf (float_clamp v float_epsilon float_below_one)) _ _ _ _ _ Hp)) as (w & Ew & _).
    exists u, (fun i j l => fsub (p i j l) (t i j l)). split; [unfold float_derivative_of; cbn [float_error float_cce float_derivative]; unfold multiply_view; cbn [mul fops]; rewrite Ew; exact Eu|]. split; [exact Hu|].
    intros i j l Hi Hj Hl. destruct (B i j l Hi Hj Hl) as [Bt Bp]. destruct (difference_size _ _ Bp Bt) as (Nd & Vd & Sd). cbv zeta. split; [exact Nd|]. rewrite Vd.
    pose proof (off_abs _ _ _ (off_difference _ _ (number_format (p i j l)) (number_format (t i j l)))) as E. destruct (zero_sign _ _ (number_format (p i j l)) (number_format (t i j l))) as [Z1 Z2]. split; [exact E|]. split; [rewrite Z1|rewrite Z2]; lra.
Qed.
Print Assumptions float_difference_derivatives.

(** The smooth absolute error passes back [prediction - truth] as well; the absolute error passes back its opposite (see C48). *)
Theorem float_absolute_derivatives : forall powf truth prediction r c k t p, is_tensor truth r c k t -> is_tensor prediction r c k p ->
  everywhere r c k (fun i j l => of_size (2 ^ 125) (t i j l) /\ of_size (2 ^ 125) (p i j l)) ->
  (exists d g, float_derivative_of (float_smae powf) truth prediction = Ok d /\ is_tensor d r c k g /\
    everywhere r c k (fun i j l => let exact := number (p i j l) - number (t i j l) in
      is_number (g i j l) /\ Rabs (number (g i j l) - exact) <= unit_error * Rabs exact /\ (0 < number (g i j l) <-> 0 < exact) /\ (number (g i j l) < 0 <-> exact < 0))) /\
  (exists d g, float_derivative_of float_mae truth prediction = Ok d /\ is_tensor d r c k g /\
    everywhere r c k (fun i j l => let exact := number (t i j l) - number (p i j l) in
      is_number (g i j l) /\ Rabs (number (g i j l) - exact) <= unit_error * Rabs exact /\ (0 < number (g i j l) <-> 0 < exact) /\ (number (g i j l) < 0 <-> exact < 0))).
Proof.
  intros powf truth prediction r c k t p Ht Hp B. destruct (pair_view fsub prediction truth r c k p t Hp Ht) as (u & Eu & Hu). split.
  - assert (One : fdiv float1 float1 = float1) by (apply to_bits_inj; reflexivity). eexists. exists (fun i j l => fmul (fdiv float1 float1) (fsub (p i j l) (t i j l))). split; [unfold float_derivative_of; cbn [float_error float_smae float_derivative]; unfold subtract_view; cbn [sub fops]; rewrite Eu; reflexivity|]. split.
    { pose proof (twice_view u r c k _ (fdiv float1 float1) Hu) as (A1 & A2 & A3 & HA). pose proof (transform_tensor (fun v => float_of_bool (flt v float1)) _ _ _ _ _ (transform_tensor (Babs 24 128 unop_nan_pl32) _ _ _ _ _ Hu)) as (M1 & M2 & M3 & M).
      unfold is_tensor, masked_select, trinary. cbn [rows cols chans get]. split; [exact M1|]. split; [exact M2|]. split; [exact M3|]. intros i j l Hi Hj Hl. unfold float_less_than_view, float_absolute_view. rewrite M by assumption. cbn [obind]. rewrite HA by assumption. match goal with |- (if ?b then _ else _) = _ => destruct b end; reflexivity. }
    intros i j l Hi Hj Hl. destruct (B i j l Hi Hj Hl) as [Bt Bp]. destruct (difference_size _ _ Bp Bt) as (Nd & Vd & Sd). rewrite One. destruct (times_one _ Nd) as [N1 V1]. cbv zeta. split; [exact N1|]. rewrite V1, Vd.
    pose proof (off_abs _ _ _ (off_difference _ _ (number_format (p i j l)) (number_format (t i j l)))) as E. destruct (zero_sign _ _ (number_format (p i j l)) (number_format (t i j l))) as [Z1 Z2]. split; [exact E|]. split; [rewrite Z1|rewrite Z2]; lra.
  - exists (scalar_multiply fops u (of_Z (-1))), (fun i j l => fmul (of_Z (-1)) (fsub (p i j l) (t i j l))). split; [unfold float_derivative_of; cbn [float_error float_mae float_derivative]; unfold subtract_view; cbn [sub fops]; rewrite Eu; reflexivity|]. split; [exact (twice_view u r c k _ (of_Z (-1)) Hu)|].
    intros i j l Hi Hj Hl. destruct (B i j l Hi Hj Hl) as [Bt Bp]. destruct (difference_size _ _ Bp Bt) as (Nd & Vd & Sd). destruct (minus_one _ Nd) as [N V]. cbv zeta. split; [exact N|]. rewrite V, Vd.
    pose proof (off_abs _ _ _ (off_difference _ _ (number_format (p i j l)) (number_format (t i j l)))) as E. destruct (zero_sign _ _ (number_format (p i j l)) (number_format (t i j l))) as [Z1 Z2]. set (x := number (p i j l)) in *. set (y := number (t i j l)) in *. split; [|split].
    + replace (- rnd (x - y) - (y - x)) with (- (rnd (x - y) - (x - y))) by ring. rewrite Rabs_Ropp, (Rabs_minus_sym y x). exact E.
    + split; intros Q; [assert (x < y) by (apply Z2; lra); lra|assert (rnd (x - y) < 0) by (apply Z2; lra); lra].
    + split; intros Q; [assert (y < x) by (apply Z1; lra); lra|assert (0 < rnd (x - y)) by (apply Z1; lra); lra].
Qed.
Print Assumptions float_absolute_derivatives.

(** ** Training a sigmoid with the binary cross-entropy *)
Lemma passed_back_is : forall lib logf score truth r c k x t, is_tensor score r c k x -> is_tensor truth r c k t ->
  exists e, passed_back lib (float_bce logf) score truth = Ok e /\ is_tensor e r c k (fun i j l => bce_back (t i j l) (float_sigmoid lib (x i j l))).
Proof.
  intros lib logf score truth r c k x t Hx Ht. unfold passed_back, float_derivative_of. cbn [float_error float_bce float_derivative]. pose proof (transform_tensor (float_sigmoid lib) _ _ _ _ _ Hx) as Hp. set (p := transform (float_sigmoid lib) score) in *. unfold multiply_view, add_view, subtract_view, divide_view. cbn [mul add sub div eqb zero fops].
  pose proof (transform_tensor (fun v => logf (float_clamp v float_epsilon float_below_one)) _ _ _ _ _ (transform_tensor (fun v => float_clamp v float_epsilon float_below_one) _ _ _ _ _ Hp)) as H1. destruct (pair_view fmul _ _ _ _ _ _ _ Ht H1) as (a & Ea & Ha). change (pointwise fmul truth (float_log_view logf (float_clip_view p float_epsilon float_below_one)) = Ok a) in Ea. rewrite Ea. cbn [obind].
  pose proof (transform_tensor (fun v => fsub float1 v) _ _ _ _ _ Ht) as Hs. pose proof (transform_tensor (fun v => fsub float1 v) _ _ _ _ _ Hp) as Hq.
  pose proof (transform_tensor (fun v => logf (float_clamp v float_epsilon float_below_one)) _ _ _ _ _ (transform_tensor (fun v => float_clamp v float_epsilon float_below_one) _ _ _ _ _ Hq)) as H2. destruct (pair_view fmul _ _ _ _ _ _ _ Hs H2) as (b & Eb & Hb).
  change (pointwise fmul (float_subtract_from float1 truth) (float_log_view logf (float_clip_view (float_subtract_from float1 p) float_epsilon float_below_one)) = Ok b) in Eb. rewrite Eb. cbn [obind]. destruct (pair_view fadd _ _ _ _ _ _ _ Ha Hb) as (ab & Eab & _). rewrite Eab. cbn [obind].
  destruct (pair_view guarded _ _ _ _ _ _ _ Ht Hp) as (d1 & E1 & D1). change (pointwise (fun x0 y => fdiv x0 (if feq y float0 then float_epsilon else y)) truth p = Ok d1) in E1. rewrite E1. cbn [obind].
  destruct (pair_view guarded _ _ _ _ _ _ _ Hs Hq) as (d2 & E2 & D2). change (pointwise (fun x0 y => fdiv x0 (if feq y float0 then float_epsilon else y)) (float_subtract_from float1 truth) (float_subtract_from float1 p) = Ok d2) in E2. rewrite E2. cbn [obind].
  destruct (pair_view fsub _ _ _ _ _ _ _ D1 D2) as (d3 & E3 & D3). rewrite E3. cbn [obind]. pose proof (twice_view d3 _ _ _ _ (of_Z (-1)) D3) as D4. cbv beta in D4.
  pose proof (transform_tensor (float_sigmoid_derivative lib) _ _ _ _ _ Hx) as H5. destruct (pair_view fmul _ _ _ _ _ _ _ H5 D4) as (e & Ee & He). exists e. split; [exact Ee|exact He].
Qed.
(** What arrives at the layer before is [prediction - truth] up to 8 units in the last place of its two parts, unless the
    prediction is 0 or 1 (or below 2^-100). *)
Theorem float_bce_passes_back : forall lib logf score truth r c k x t, is_tensor score r c k x -> is_tensor truth r c k t ->
  exists e g, passed_back lib (float_bce logf) score truth = Ok e /\ is_tensor e r c k g /\
    everywhere r c k (fun i j l => let p := number (float_sigmoid lib (x i j l)) in let y := number (t i j l) in
      portion (t i j l) -> is_number (float_sigmoid lib (x i j l)) -> / 2 ^ 100 <= p < 1 ->
      is_number (g i j l) /\ Rabs (number (g i j l) - (p - y)) <= 8 * unit_error * (y * (1 - p) + (1 - y) * p) + 3 * tiny).
Proof.
  intros lib logf score truth r c k x t Hx Ht. destruct (passed_back_is lib logf score truth r c k x t Hx Ht) as (e & Ee & He). exists e. eexists. split; [exact Ee|]. split; [exact He|]. intros i j l Hi Hj Hl p y [Nt Bt] Np Bp. apply (bce_back_near (t i j l) (float_sigmoid lib (x i j l)) Nt Np Bt Bp).
Qed.
Print Assumptions float_bce_passes_back.
(** For the truths 0 and 1 that is [prediction - truth] up to 9 units in the last place, with the right sign. *)
Theorem float_bce_corrects_labels : forall lib logf score truth r c k x t, is_tensor score r c k x -> is_tensor truth r c k t ->
  exists e g, passed_back lib (float_bce logf) score truth = Ok e /\ is_tensor e r c k g /\
    everywhere r c k (fun i j l => let p := number (float_sigmoid lib (x i j l)) in let y := number (t i j l) in
      is_number (t i j l) -> y = 0 \/ y = 1 -> is_number (float_sigmoid lib (x i j l)) -> / 2 ^ 100 <= p < 1 ->
      is_number (g i j l) /\ Rabs (number (g i j l) - (p - y)) <= 9 * unit_error * Rabs (p - y) /\ (y = 0 -> 0 < number (g i j l)) /\ (y = 1 -> number (g i j l) < 0)).
Proof.
  intros lib logf score truth r c k x t Hx Ht. destruct (float_bce_passes_back lib logf score truth r c k x t Hx Ht) as (e & g & Ee & He & B). exists e, g. split; [exact Ee|]. split; [exact He|]. intros i j l Hi Hj Hl p y Nt Hy Np Bp.
  destruct (B i j l Hi Hj Hl) as [N E]; [split; [exact Nt|fold y; lra]|exact Np|exact Bp|]. fold p y in E. split; [exact N|]. pose proof tiny_pos as T0. pose proof unit_value as UV.
  assert (P100 : 0 < / 2 ^ 100) by (apply Rinv_0_lt_compat; apply pow_lt; lra). assert (T3 : 3 * tiny <= / 16777216 * / 2 ^ 100). { rewrite tiny_value. replace (2 ^ 150) with (2 ^ 26 * (2 ^ 24 * 2 ^ 100)) by (rewrite <- !pow_add; reflexivity). rewrite !Rinv_mult. set (q := / 2 ^ 100) in *. clearbody q. replace (2 ^ 24) with 16777216 by lra. replace (2 ^ 26) with 67108864 by lra. lra. }
  assert (L24 : / 2 ^ 100 <= 1 - p). { destruct (rest_of (float_sigmoid lib (x i j l)) Np ltac:(fold p; lra)) as (_ & V & _ & O & L). specialize (L ltac:(fold p; lra)). apply off_abs in O. fold p in O. rewrite (Rabs_pos_eq (1 - p)) in O by lra. apply Rabs_le_inv in O. rewrite UV in O. assert (/ 2 ^ 100 <= / 2 ^ 25) by (apply Rinv_le; [apply pow_lt; lra|apply Rle_pow; [lra|lia]]). lra. }
  set (q := / 2 ^ 100) in *. clearbody q. rewrite UV in *. destruct Hy as [Hy|Hy]; rewrite Hy in *.
  - rewrite Rminus_0_r in *. rewrite (Rabs_pos_eq p) by lra. assert (E' : Rabs (number (g i j l) - p) <= 9 * / 16777216 * p) by lra. split; [exact E'|]. apply Rabs_le_inv in E'. split; intros Q; lra.
  - rewrite (Rabs_left1 (p - 1)) by lra. assert (E' : Rabs (number (g i j l) - (p - 1)) <= 9 * / 16777216 * - (p - 1)) by lra. split; [exact E'|]. apply Rabs_le_inv in E'. split; intros Q; lra.
Qed.
Print Assumptions float_bce_corrects_labels.
(** A prediction that came out as 0 or 1 is never corrected, however wrong it is: scores of 20 and more and of -100 and less pass back 0
    whatever the truth is, although the loss is at its largest for the wrong ones. *)
Theorem saturated_predictions_learn_refuted : forall lib eps logf score truth r c k x t, 0 <= eps <= / 2 -> accurate_exp (expf lib) eps -> is_tensor score r c k x -> is_tensor truth r c k t ->
  exists e g, passed_back lib (float_bce logf) score truth = Ok e /\ is_tensor e r c k g /\
    everywhere r c k (fun i j l => portion (t i j l) -> is_number (x i j l) -> 20 <= number (x i j l) \/ number (x i j l) <= -100 -> is_number (g i j l) /\ number (g i j l) = 0).
Proof.
  intros lib eps logf score truth r c k x t He A Hx Ht. destruct (passed_back_is lib logf score truth r c k x t Hx Ht) as (e & Ee & Hee). exists e. eexists. split; [exact Ee|]. split; [exact Hee|]. intros i j l Hi Hj Hl [Nt Bt] Nx [Q|Q].
  - destruct (sigmoid_one lib eps (x i j l) ltac:(lra) A Nx Q) as [Np Vp]. apply bce_back_stuck; try assumption. now right.
  - destruct (sigmoid_zero lib eps (x i j l) He A Nx Q) as [Np Vp]. apply bce_back_stuck; try assumption. now left.
Qed.
Print Assumptions saturated_predictions_learn_refuted.

(** ** The values of the cross-entropies *)
Lemma in_elements : forall A r c k (f : nat -> nat -> nat -> A) v, In v (Reduce_Spec.elements r c k f) -> exists i j l, (i < r)%nat /\ (j < c)%nat /\ (l < k)%nat /\ v = f i j l.
Proof.
  intros A r c k f v H. unfold Reduce_Spec.elements in H. apply in_concat in H as (L1 & I1 & I2). apply in_map_iff in I1 as (l & <- & Il). apply in_concat in I2 as (L2 & I3 & I4). apply in_map_iff in I3 as (i & <- & Ii). apply in_map_iff in I4 as (j & <- & Ij). rewrite in_seq in *. exists i, j, l. repeat split; lia.
Qed.
Lemma length_elements : forall A r c k (f : nat -> nat -> nat -> A), length (Reduce_Spec.elements r c k f) = (k * (r * c))%nat.
Proof.
  assert (G : forall (A B : Type) (h : B -> list A) n l, (forall x, In x l -> length (h x) = n) -> length (concat (map h l)) = (length l * n)%nat).
  { intros A B h n l H. induction l as [|x l IH]; [reflexivity|]. cbn [map concat length]. rewrite app_length, H by now left. rewrite IH by (intros y Hy; apply H; now right). lia. }
  intros A r c k f. unfold Reduce_Spec.elements. rewrite (G _ _ _ (r * c)%nat), seq_length; [reflexivity|]. intros l _. rewrite (G _ _ _ c), seq_length; [reflexivity|]. intros i _. now rewrite map_length, seq_length.
Qed.
Lemma loss_value : forall t r c k f exact, is_tensor t r c k f -> (Z.of_nat (r * c * k) <= 1048576)%Z -> everywhere r c k (fun i j l => is_number (f i j l) /\ 0 <= number (f i j l) <= 21 /\ Rabs (number (f i j l) - exact i j l) <= 110 * unit_error) ->
  exists v, (do s <- float_sum t; Ok (narrow s)) = Ok v /\ is_number v /\ 0 <= number v /\ Rabs (number v - sum_of (Reduce_Spec.elements r c k exact)) <= INR (r * c * k) / 100000.
Proof.
  intros t r c k f exact Ht Hn B. unfold float_sum. rewrite (Reduce_Proofs.scan_fold t r c k f (fun result v => add64 result (widen v)) _ _ Ht) by reflexivity. cbn [obind]. eexists. split; [reflexivity|].
  set (l := Reduce_Spec.elements r c k (fun i j q => (f i j q, exact i j q))). assert (L : length l = (r * c * k)%nat) by (unfold l; rewrite length_elements; lia).
  pose proof (float_elements_map r c k (fun i j q => (f i j q, exact i j q)) fst) as E1. pose proof (float_elements_map r c k (fun i j q => (f i j q, exact i j q)) snd) as E2. cbn [fst snd] in E1, E2. change (Reduce_Spec.elements r c k f = map fst l) in E1. change (Reduce_Spec.elements r c k exact = map snd l) in E2. rewrite E1, E2, <- L. apply loss_sum; [rewrite L; exact Hn|].
  intros x q I. apply in_elements in I as (i & j & z & Hi & Hj & Hz & Q). injection Q as -> ->. now apply B.
Qed.
(** The loss of a record is the cross-entropy up to 1/100000 for each output; predictions below 1e-8 count as 1e-8.  It is never negative, NaN or
    infinite, and a prediction of exactly 0 or 1 that is right adds nothing. *)
Theorem float_bce_loss : forall logf truth prediction r c k t p, accurate_log logf -> is_tensor truth r c k t -> is_tensor prediction r c k p -> (Z.of_nat (r * c * k) <= 1048576)%Z ->
  everywhere r c k (fun i j l => portion (t i j l) /\ portion (p i j l)) ->
  (exists v, float_loss_of (float_bce logf) truth prediction = Ok v /\ is_number v /\ 0 <= number v /\
    Rabs (number v - sum_of (Reduce_Spec.elements r c k (fun i j l => - (number (t i j l) * ln (clipped (number (p i j l))) + (1 - number (t i j l)) * ln (clipped (1 - number (p i j l))))))) <= INR (r * c * k) / 100000) /\
  (exists e g, float_error (float_bce logf) truth prediction = Ok e /\ is_tensor e r c k g /\ everywhere r c k (fun i j l => number (t i j l) = number (p i j l) -> number (p i j l) = 0 \/ number (p i j l) = 1 -> number (g i j l) = 0)).
Proof.
  intros logf truth prediction r c k t p A Ht Hp Hn B. assert (E : exists e, float_error (float_bce logf) truth prediction = Ok e /\ is_tensor e r c k (fun i j l => bce_element logf (t i j l) (p i j l))).
  { cbn [float_error float_bce]. unfold multiply_view, add_view. cbn [mul add fops].
    pose proof (transform_tensor (fun v => logf (float_clamp v float_epsilon float_below_one)) _ _ _ _ _ (transform_tensor (fun v => float_clamp v float_epsilon float_below_one) _ _ _ _ _ Hp)) as H1. destruct (pair_view fmul _ _ _ _ _ _ _ Ht H1) as (a & Ea & Ha). change (pointwise fmul truth (float_log_view logf (float_clip_view prediction float_epsilon float_below_one)) = Ok a) in Ea. rewrite Ea. cbn [obind].
    pose proof (transform_tensor (fun v => fsub float1 v) _ _ _ _ _ Ht) as Hs. pose proof (transform_tensor (fun v => fsub float1 v) _ _ _ _ _ Hp) as Hq.
    pose proof (transform_tensor (fun v => logf (float_clamp v float_epsilon float_below_one)) _ _ _ _ _ (transform_tensor (fun v => float_clamp v float_epsilon float_below_one) _ _ _ _ _ Hq)) as H2. destruct (pair_view fmul _ _ _ _ _ _ _ Hs H2) as (b & Eb & Hb).
    change (pointwise fmul (float_subtract_from float1 truth) (float_log_view logf (float_clip_view (float_subtract_from float1 prediction) float_epsilon float_below_one)) = Ok b) in Eb. rewrite Eb. cbn [obind]. destruct (pair_view fadd _ _ _ _ _ _ _ Ha Hb) as (ab & Eab & Hab). rewrite Eab. cbn [obind].
    eexists. split; [reflexivity|]. exact (twice_view ab _ _ _ _ (of_Z (-1)) Hab). }
  destruct E as (e & Ee & He). split.
  - unfold float_loss_of. rewrite Ee. cbn [obind float_value float_bce]. apply (loss_value e r c k _ _ He Hn). intros i j l Hi Hj Hl. destruct (B i j l Hi Hj Hl) as [[Nt Bt] [Np Bp]]. destruct (bce_element_is logf _ _ A Nt Np Bt Bp) as (X1 & X2 & X3 & _). now repeat split.
  - exists e. eexists. split; [exact Ee|]. split; [exact He|]. intros i j l Hi Hj Hl. destruct (B i j l Hi Hj Hl) as [[Nt Bt] [Np Bp]]. apply (bce_element_is logf _ _ A Nt Np Bt Bp).
Qed.
Print Assumptions float_bce_loss.
Theorem float_cce_loss : forall logf truth prediction r c k t p, accurate_log logf -> is_tensor truth r c k t -> is_tensor prediction r c k p -> (Z.of_nat (r * c * k) <= 1048576)%Z ->
  everywhere r c k (fun i j l => portion (t i j l) /\ portion (p i j l)) ->
  exists v, float_loss_of (float_cce logf) truth prediction = Ok v /\ is_number v /\ 0 <= number v /\
    Rabs (number v - sum_of (Reduce_Spec.elements r c k (fun i j l => - (number (t i j l) * ln (clipped (number (p i j l))))))) <= INR (r * c * k) / 100000.
Proof.
  intros logf truth prediction r c k t p A Ht Hp Hn B.
  destruct (pair_view fmul (scalar_multiply fops truth (of_Z (-1))) (float_log_view logf prediction) r c k _ _ (twice_view _ _ _ _ _ (of_Z (-1)) Ht) (transform_tensor (fun v => logf (float_clamp v float_epsilon float_below_one)) _ _ _ _ _ Hp)) as (w & Ew & Hw).
  unfold float_loss_of. cbn [float_error float_cce]. unfold multiply_view. cbn [mul fops]. rewrite Ew. cbn [obind float_value float_cce]. apply (loss_value w r c k _ _ Hw Hn). intros i j l Hi Hj Hl. destruct (B i j l Hi Hj Hl) as [[Nt Bt] [Np Bp]]. apply (cce_element_is logf _ _ A Nt Np Bt Bp).
Qed.
Print Assumptions float_cce_loss.

(** ** Means *)
(** The mean of a tensor lies between its smallest and its largest element, whatever its size is and in spite of rounding. *)
Theorem float_mean_between : forall t r c k f lo hi, is_tensor t r c k f -> (0 < r * c * k)%nat -> (Z.of_nat (r * c * k) < 2 ^ 53)%Z -> is_number lo -> is_number hi ->
  everywhere r c k (fun i j l => is_number (f i j l) /\ number lo <= number (f i j l) <= number hi) ->
  exists v, float_mean t = Ok v /\ is_number v /\ number lo <= number v <= number hi.
Proof.
  intros t r c k f lo hi Ht P Hn Nl Nh B. unfold float_mean. rewrite (Reduce_Proofs.scan_fold t r c k f mean_step _ _ Ht) by reflexivity. cbn [obind]. eexists. split; [reflexivity|].
  pose proof (length_elements _ r c k f) as L. pose proof (number_bounds lo). pose proof (number_bounds hi). apply mean_between; try apply number_format; try lra.
  - rewrite L. change (2 ^ 53)%Z with 9007199254740992%Z in Hn. lia.
  - intros Q. rewrite Q in L. cbn in L. lia.
  - intros x I. apply in_elements in I as (i & j & l & Hi & Hj & Hl & ->). now apply B.
Qed.
Print Assumptions float_mean_between.
(** So the mean absolute error is a number from 0 to the largest difference: 0 for a perfect prediction. *)
Theorem float_mae_loss : forall truth prediction r c k t p limit, is_tensor truth r c k t -> is_tensor prediction r c k p -> (0 < r * c * k)%nat -> (Z.of_nat (r * c * k) < 2 ^ 53)%Z -> is_number limit ->
  everywhere r c k (fun i j l => of_size (2 ^ 125) (t i j l) /\ of_size (2 ^ 125) (p i j l) /\ Rabs (number (p i j l) - number (t i j l)) <= number limit) ->
  exists v, float_loss_of float_mae truth prediction = Ok v /\ is_number v /\ 0 <= number v <= number limit.
Proof.
  intros truth prediction r c k t p limit Ht Hp P Hn Nl B. destruct (pair_view fsub prediction truth r c k p t Hp Ht) as (u & Eu & Hu).
  unfold float_loss_of. cbn [float_error float_mae]. unfold subtract_view. cbn [sub fops]. rewrite Eu. cbn [obind float_value float_mae].
  destruct (float_mean_between (float_absolute_view u) r c k _ float0 limit (transform_tensor (Babs 24 128 unop_nan_pl32) _ _ _ _ _ Hu) P Hn ltac:(reflexivity) Nl) as (v & E & N & V); [|exists v; split; [exact E|]; split; [exact N|exact V]].
  intros i j l Hi Hj Hl. destruct (B i j l Hi Hj Hl) as (Bt & Bp & D). destruct (difference_size _ _ Bp Bt) as (Nd & Vd & _). destruct (abs_is _ Nd) as [Na Va]. split; [exact Na|]. rewrite Va, Vd. change (number float0) with 0. split; [apply Rabs_pos|].
  apply abs_round_le_generic; [typeclasses eauto|typeclasses eauto|apply number_format|exact D].
Qed.
Print Assumptions float_mae_loss.
(** The mean squared error is a number, not negative, and at most the largest square (with room for rounding). *)
Theorem float_mse_loss : forall powf truth prediction r c k t p size limit, accurate_square powf -> is_tensor truth r c k t -> is_tensor prediction r c k p -> (0 < r * c * k)%nat -> (Z.of_nat (r * c * k) < 2 ^ 53)%Z -> is_number limit ->
  0 <= size <= 2 ^ 62 -> (1 + 8 * unit_error) * (size * size) + 4 * tiny <= number limit ->
  everywhere r c k (fun i j l => of_size (2 ^ 125) (t i j l) /\ of_size (2 ^ 125) (p i j l) /\ Rabs (number (p i j l) - number (t i j l)) <= size) ->
  exists v, float_loss_of (float_mse powf) truth prediction = Ok v /\ is_number v /\ 0 <= number v <= number limit.
Proof.
  intros powf truth prediction r c k t p size limit (Sq & _ & Sp) Ht Hp P Hn Nl Hs Lim B. destruct (pair_view fsub prediction truth r c k p t Hp Ht) as (u & Eu & Hu).
  unfold float_loss_of. cbn [float_error float_mse]. unfold subtract_view. cbn [sub fops]. rewrite Eu. cbn [obind float_value float_mse].
  destruct (float_mean_between (float_square_view powf u) r c k _ float0 limit (transform_tensor (fun v => powf v (of_Z 2)) _ _ _ _ _ Hu) P Hn ltac:(reflexivity) Nl) as (v & E & N & V); [|exists v; split; [exact E|]; split; [exact N|exact V]].
  intros i j l Hi Hj Hl. destruct (B i j l Hi Hj Hl) as (Bt & Bp & D). destruct (difference_size _ _ Bp Bt) as (Nd & Vd & _). set (d := fsub (p i j l) (t i j l)) in *.
  pose proof (off_abs _ _ _ (off_difference _ _ (number_format (p i j l)) (number_format (t i j l)))) as Ed. rewrite <- Vd in Ed. set (x := number (p i j l) - number (t i j l)) in *. pose proof unit_value as UV. pose proof tiny_pos as T0.
  assert (Dd : Rabs (number d) <= (1 + unit_error) * size). { replace (number d) with (number d - x + x) by ring. eapply Rle_trans; [apply Rabs_triang|]. assert (unit_error * Rabs x <= unit_error * size) by (apply Rmult_le_compat_l; [rewrite UV; lra|exact D]). lra. }
  assert (P63 : 2 * 2 ^ 62 = 2 ^ 63) by (rewrite tech_pow_Rmult; reflexivity). destruct (Sq d Nd) as [Ns Es]; [eapply Rle_trans; [exact Dd|]; rewrite UV; lra|]. destruct (Sp d Nd) as [_ S0]. split; [exact Ns|]. change (number float0) with 0. pose proof (order_pos _ Ns S0) as S1. split; [exact S1|].
  assert (Q : number d * number d <= (1 + 3 * unit_error) * (size * size)). { rewrite <- (Rabs_pos_eq (number d * number d)), Rabs_mult by apply Rle_0_sqr. apply Rle_trans with ((1 + unit_error) * size * ((1 + unit_error) * size)); [apply Rmult_le_compat; try apply Rabs_pos; exact Dd|]. replace ((1 + unit_error) * size * ((1 + unit_error) * size)) with ((1 + unit_error) * (1 + unit_error) * (size * size)) by ring. apply Rmult_le_compat_r; [apply Rle_0_sqr|]. rewrite UV. lra. }
  assert (Q0 : 0 <= number d * number d) by apply Rle_0_sqr. assert (W0 : 0 <= size * size) by apply Rle_0_sqr. apply Rabs_le_inv in Es. rewrite UV in *. set (w := size * size) in *. set (z := number d * number d) in *. clearbody w z. lra.
Qed.
Print Assumptions float_mse_loss.

(** ** Examples *)
(** The correctly rounded logarithm is accurate enough. *)
Definition rounded_log (x : F) : F := fmul (of_Z (-1)) (FloatExp_Proofs.nearest (- ln (number x))).
Theorem rounded_log_accurate : accurate_log rounded_log.
Proof.
  intros x N B. unfold rounded_log. pose proof (log_range _ B) as L. set (w := - ln (number x)) in *. assert (W : 0 <= w <= 20) by (unfold w; lra). pose proof (FloatExp_Proofs.nearest_is w ltac:(lra)) as (A & O & Q).
  assert (R20 : rnd w <= 20) by (apply rnd_le_F; [apply (F32_small 20); lia|lra]). assert (M : 20 < max32). { pose proof (number_bounds (of_Z 20)). rewrite (proj2 (whole 20 ltac:(lia))) in H. lra. }
  specialize (Q ltac:(lra)). rewrite (order_number _ Q), Rmin_left in O by lra. destruct (minus_one _ Q) as [Nm Vm]. split; [exact Nm|]. rewrite Vm, O. replace (ln (number x)) with (- w) by (unfold w; ring). replace (- rnd w - - w) with (- (rnd w - w)) by ring. rewrite !Rabs_Ropp.
  destruct (Req_dec (number x) 1) as [E|E].
  - replace w with 0 by (unfold w; rewrite E, ln_1; ring). rewrite rnd_0, Rminus_0_r, Rabs_R0. lra.
  - pose proof epsilon_value as Ev. destruct (rest_of x N ltac:(lra)) as (_ & V & _ & D & H). specialize (H ltac:(lra)). apply off_abs in D. rewrite (Rabs_pos_eq (1 - number x)) in D by lra. apply Rabs_le_inv in D. pose proof unit_value as UV. rewrite UV in *.
    assert (W2 : 1 - number x <= w). { unfold w. pose proof (exp_ineq1_le (ln (number x))) as I. rewrite exp_ln in I by lra. lra. }
    assert (T : 4 * (2 ^ 24 * tiny) <= Rabs w). { rewrite (Rabs_pos_eq w) by lra. rewrite tiny_value. apply Rle_trans with (/ 2 ^ 25). - replace (2 ^ 150) with (2 ^ 26 * 2 ^ 124) by (rewrite <- pow_add; reflexivity). rewrite Rinv_mult. replace (4 * (2 ^ 24 * (/ 2 ^ 26 * / 2 ^ 124))) with (/ 2 ^ 124) by field. apply Rinv_le; [apply pow_lt; lra|apply Rle_pow; [lra|lia]]. - replace (2 ^ 25) with 33554432 by lra. replace (2 ^ 24) with 16777216 in H by lra. lra. }
    pose proof (off_abs _ _ _ (off_normal w T)) as K. rewrite UV in K. pose proof (Rabs_pos w). lra.
Qed.
Print Assumptions rounded_log_accurate.

(** ** Examples *)
Definition exact_library : library := {| expf := FloatExp_Proofs.rounded_exp; tanhf := fun x => x |}.
Ltac a_row := unfold is_tensor; repeat split; try reflexivity; intros i j l Hi Hj Hl; destruct j as [|[|j]]; [reflexivity|reflexivity|lia].
Ltac spread := intros i j l Hi Hj Hl; destruct j as [|[|j]]; [| |lia].
Definition two (a b : F) : nat -> nat -> nat -> F := fun _ c _ => nth c [a; b] float0.
Lemma zero_is : number (of_Z 0) = 0.
Proof. apply (whole 0). lia. Qed.
(** A score of 20 for a field that is 0, and one of -100 for a field that is 1: the worst mistakes, and nothing is passed back. *)
Example ex_saturated : exists e g, passed_back exact_library (float_bce rounded_log) (row [of_Z 20; of_Z (-100)]) (row [of_Z 0; of_Z 1]) = Ok e /\ is_tensor e 1 2 1 g /\ number (g 0 0 0)%nat = 0 /\ number (g 0 1 0)%nat = 0.
Proof.
  destruct (saturated_predictions_learn_refuted exact_library unit_error rounded_log (row [of_Z 20; of_Z (-100)]) (row [of_Z 0; of_Z 1]) 1 2 1 (two (of_Z 20) (of_Z (-100))) (two (of_Z 0) (of_Z 1))) as (e & g & E & T & G); [rewrite unit_value; lra|exact FloatFaith_Proofs.rounded_exp_accurate|a_row|a_row|].
  exists e, g. split; [exact E|]. split; [exact T|]. destruct (whole 0 ltac:(lia)) as [N0 V0]. destruct (whole 1 ltac:(lia)) as [N1 V1]. destruct (whole 20 ltac:(lia)) as [N2 V2]. destruct (whole (-100) ltac:(lia)) as [N3 V3].
  split; [apply (G 0 0 0)%nat|apply (G 0 1 0)%nat]; try lia; unfold two; cbn [nth]; try assumption; try (split; [assumption|lra]); lra.
Qed.
(** A score of 0 is a prediction of 1/2: what is passed back for the truths 1 and 0 is -1/2 and 1/2. *)
Example ex_undecided : exists e g, passed_back exact_library (float_bce rounded_log) (row [of_Z 0; of_Z 0]) (row [of_Z 1; of_Z 0]) = Ok e /\ is_tensor e 1 2 1 g /\ Rabs (number (g 0 0 0)%nat - - / 2) <= 5 * unit_error /\ Rabs (number (g 0 1 0)%nat - / 2) <= 5 * unit_error.
Proof.
  destruct (float_bce_corrects_labels exact_library rounded_log (row [of_Z 0; of_Z 0]) (row [of_Z 1; of_Z 0]) 1 2 1 (two (of_Z 0) (of_Z 0)) (two (of_Z 1) (of_Z 0))) as (e & g & E & T & G); [a_row|a_row|].
  exists e, g. split; [exact E|]. split; [exact T|]. destruct (whole 0 ltac:(lia)) as [N0 V0]. destruct (whole 1 ltac:(lia)) as [N1 V1].
  assert (S : is_number (float_sigmoid exact_library (of_Z 0)) /\ number (float_sigmoid exact_library (of_Z 0)) = / 2).
  { destruct (proj1 (FloatAct_Props.float_sigmoid_works exact_library FloatExp_Proofs.rounded_exp_like) (row [of_Z 0; of_Z 0]) 1%nat 2%nat 1%nat (two (of_Z 0) (of_Z 0))) as (y & h & Ey & Ty & H); [a_row|]. cbn in Ey. injection Ey as <-. destruct Ty as (_ & _ & _ & Ty). specialize (Ty 0%nat 0%nat 0%nat ltac:(lia) ltac:(lia) ltac:(lia)). cbn in Ty. injection Ty as Ty. destruct (H 0%nat 0%nat 0%nat ltac:(lia) ltac:(lia) ltac:(lia)) as [H1 H2]. rewrite <- Ty in *. split; [apply H1; now apply number_not_NaN|apply H2; [exact N0|exact V0]]. }
  destruct S as [Ns Vs]. assert (P : / 2 ^ 100 <= / 2 < 1) by (split; [apply Rinv_le; [lra|]; apply Rle_trans with (2 ^ 1); [lra|apply Rle_pow; [lra|lia]]|lra]). split.
  - destruct (G 0%nat 0%nat 0%nat ltac:(lia) ltac:(lia) ltac:(lia)) as (_ & D & _); unfold two in *; cbn [nth] in *; try assumption; [rewrite V1; now right|rewrite Vs; exact P|]. rewrite Vs, V1 in D. replace (/ 2 - 1) with (- / 2) in D by lra. rewrite Rabs_Ropp, (Rabs_pos_eq (/ 2)) in D by lra. pose proof unit_value as UV. rewrite UV in *. lra.
  - destruct (G 0%nat 1%nat 0%nat ltac:(lia) ltac:(lia) ltac:(lia)) as (_ & D & _); unfold two in *; cbn [nth] in *; try assumption; [rewrite V0; now left|rewrite Vs; exact P|]. rewrite Vs, V0, Rminus_0_r in D. rewrite (Rabs_pos_eq (/ 2)) in D by lra. pose proof unit_value as UV. rewrite UV in *. lra.
Qed.
(** Predictions of 1/2 and 1 for two fields that are 1: the loss is ln 2. *)
Example ex_bce_loss : exists v, float_loss_of (float_bce rounded_log) (row [of_Z 1; of_Z 1]) (row [float_half; of_Z 1]) = Ok v /\ Rabs (number v - ln 2) <= 2 / 100000.
Proof.
  destruct (whole 1 ltac:(lia)) as [N1 V1]. destruct half_is as [Nh Vh].
  destruct (float_bce_loss rounded_log (row [of_Z 1; of_Z 1]) (row [float_half; of_Z 1]) 1 2 1 (two (of_Z 1) (of_Z 1)) (two float_half (of_Z 1)) rounded_log_accurate) as [(v & E & N & P & D) _]; [a_row|a_row|lia|spread; unfold two; cbn [nth]; unfold portion; (split; (split; [assumption|lra]))|].
  exists v. split; [exact E|]. unfold Reduce_Spec.elements in D. unfold two in D. cbn [seq map concat app nth sum_of fold_right Nat.mul Nat.add INR] in D. rewrite V1, Vh in D. unfold clipped in D. pose proof epsilon_value as Ev. rewrite (Rmax_left (/ 2)), (Rmax_left 1), ln_1, ln_Rinv in D by (rewrite ?Ev; lra).
  match type of D with Rabs (number v - ?s) <= _ => replace s with (ln 2) in D by ring end. lra.
Qed.
(** Predictions of 2 and 2 for 1 and 5: derivatives of 2 and -6, and losses between 0 and 3 and between 0 and 10. *)
Example ex_differences :
  (exists d g, float_derivative_of (float_smae (fun x _ => fmul x x)) (row [of_Z 1; of_Z 5]) (row [of_Z 2; of_Z 2]) = Ok d /\ is_tensor d 1 2 1 g /\ Rabs (number (g 0 1 0)%nat - -3) <= 3 * unit_error) /\
  (exists d g, float_derivative_of (float_mse (fun x _ => fmul x x)) (row [of_Z 1; of_Z 5]) (row [of_Z 2; of_Z 2]) = Ok d /\ is_tensor d 1 2 1 g /\ Rabs (number (g 0 1 0)%nat - -6) <= 6 * unit_error /\ number (g 0 1 0)%nat < 0) /\
  (exists v, float_loss_of float_mae (row [of_Z 1; of_Z 5]) (row [of_Z 2; of_Z 2]) = Ok v /\ 0 <= number v <= 3) /\
  (exists v, float_loss_of (float_mse (fun x _ => fmul x x)) (row [of_Z 1; of_Z 5]) (row [of_Z 2; of_Z 2]) = Ok v /\ 0 <= number v <= 10).
Proof.
  assert (Z : forall z, (Z.abs z <= 1024)%Z -> of_size (2 ^ 125) (of_Z z)) by (intros z Hz; apply FloatOpt_Props.small_size; [exact Hz|lia]).
  destruct (whole 1 ltac:(lia)) as [N1 V1]. destruct (whole 2 ltac:(lia)) as [N2 V2]. destruct (whole 5 ltac:(lia)) as [N5 V5]. destruct (whole 3 ltac:(lia)) as [N3 V3]. destruct (whole 10 ltac:(lia)) as [N10 V10].
  assert (Q : everywhere 1 2 1 (fun i j l => of_size (2 ^ 125) (two (of_Z 1) (of_Z 5) i j l) /\ of_size (2 ^ 125) (two (of_Z 2) (of_Z 2) i j l) /\ Rabs (number (two (of_Z 2) (of_Z 2) i j l) - number (two (of_Z 1) (of_Z 5) i j l)) <= 3)).
  { spread; unfold two; cbn [nth]; (split; [apply Z; lia|]; split; [apply Z; lia|]); rewrite ?V1, ?V2, ?V5; apply Rabs_le; lra. }
  split; [|split; [|split]].
  - destruct (float_absolute_derivatives (fun x _ => fmul x x) (row [of_Z 1; of_Z 5]) (row [of_Z 2; of_Z 2]) 1 2 1 (two (of_Z 1) (of_Z 5)) (two (of_Z 2) (of_Z 2))) as [(d & g & E & T & G) _]; [a_row|a_row|intros i j l Hi Hj Hl; split; apply (Q i j l Hi Hj Hl)|].
    exists d, g. split; [exact E|]. split; [exact T|]. destruct (G 0%nat 1%nat 0%nat ltac:(lia) ltac:(lia) ltac:(lia)) as (_ & D & _). unfold two in *. cbn [nth] in *. rewrite V2, V5 in *. replace (2 - 5) with (-3) in D by ring. rewrite (Rabs_left (-3)) in D by lra. lra.
  - destruct (float_difference_derivatives rounded_log (fun x _ => fmul x x) (row [of_Z 1; of_Z 5]) (row [of_Z 2; of_Z 2]) 1 2 1 (two (of_Z 1) (of_Z 5)) (two (of_Z 2) (of_Z 2))) as [(d & g & E & T & G) _]; [a_row|a_row|intros i j l Hi Hj Hl; split; apply (Q i j l Hi Hj Hl)|].
    exists d, g. split; [exact E|]. split; [exact T|]. destruct (G 0%nat 1%nat 0%nat ltac:(lia) ltac:(lia) ltac:(lia)) as (_ & D & _ & S). unfold two in *. cbn [nth] in *. rewrite V2, V5 in *. split; [|apply S; lra]. replace (2 * (2 - 5)) with (- 6) in D by ring. rewrite (Rabs_left (-6)) in D by lra. lra.
  - destruct (float_mae_loss (row [of_Z 1; of_Z 5]) (row [of_Z 2; of_Z 2]) 1 2 1 (two (of_Z 1) (of_Z 5)) (two (of_Z 2) (of_Z 2)) (of_Z 3)) as (v & E & _ & B); [a_row|a_row|lia|lia|exact N3|rewrite V3; exact Q|]. exists v. split; [exact E|]. rewrite V3 in B. exact B.
  - destruct (float_mse_loss (fun x _ => fmul x x) (row [of_Z 1; of_Z 5]) (row [of_Z 2; of_Z 2]) 1 2 1 (two (of_Z 1) (of_Z 5)) (two (of_Z 2) (of_Z 2)) 3 (of_Z 10) product_square) as (v & E & _ & B); [a_row|a_row|lia|lia|exact N10| | |exact Q|].
    + split; [lra|]. apply Rle_trans with (2 ^ 2); [lra|apply Rle_pow; [lra|lia]].
    + rewrite V10. pose proof tiny_le. rewrite unit_value. lra.
    + exists v. split; [exact E|]. rewrite V10 in B. exact B.
Qed.
