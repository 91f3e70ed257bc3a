(** Proofs about the accuracy of a network. *)
From Coq Require Import List Arith Bool ZArith Reals Lia Lra.
From Flocq Require Import Core IEEE754.BinarySingleNaN IEEE754.Binary IEEE754.Bits.
From Verif Require Import Outcome Chars F32_Model F32_Proofs Tensor_Model Reduce_Model Accuracy_Model Accuracy_Spec.
Import ListNotations.
Local Open Scope R_scope.

(** ** Counting in [float] *)
Definition cap (n : nat) : Z := Z.min (Z.of_nat n) (2 ^ 24).
Lemma big32 : bpow radix2 31 < max32.
Proof. apply bpow_lt. lia. Qed.
Lemma small_Z : forall z, (Z.abs z <= 2 ^ 24)%Z -> Rabs (rnd (IZR z)) < max32.
Proof.
  intros z H. rewrite rnd_id by now apply F32_Z. rewrite <- abs_IZR. apply Rle_lt_trans with (IZR (2 ^ 24)); [now apply IZR_le|]. change (IZR (2 ^ 24)) with (bpow radix2 24). apply bpow_lt. lia.
Qed.
Lemma val_of_Z : forall z, (Z.abs z <= 2 ^ 24)%Z -> val (of_Z z) = IZR z /\ finite (of_Z z) = true.
Proof. intros z H. destruct (of_Z_correct z (small_Z z H)) as [A B]. split; [|exact B]. rewrite A. apply rnd_id, F32_Z, H. Qed.
Definition counts (x : binary32) (n : nat) : Prop := finite x = true /\ val x = IZR (cap n).
Lemma counts_0 : counts (of_Z 0) 0.
Proof. destruct (val_of_Z 0 ltac:(lia)) as [A B]. split; [exact B|exact A]. Qed.
Lemma at_cap : forall x, finite x = true -> val x = IZR (2 ^ 24) -> fadd x (of_Z 1) = x.
Proof.
  intros x Hf Hv. assert (E : x = of_Z (2 ^ 24)).
  { destruct (val_of_Z (2 ^ 24) ltac:(lia)) as [A B]. assert (P : 0 < IZR (2 ^ 24)) by (apply (IZR_lt 0); reflexivity). assert (X : val x = val (of_Z (2 ^ 24))) by now rewrite Hv, A.
    apply (B2R_inj 24 128); [| |exact X].
    - destruct x; try reflexivity; try discriminate Hf. cbn in Hv. lra.
    - destruct (of_Z (2 ^ 24)); try reflexivity; try discriminate B. cbn in A. lra. }
  subst x. apply to_bits_inj. vm_compute. reflexivity.
Qed.
Lemma counts_S : forall x n, counts x n -> counts (fadd x (of_Z 1)) (S n).
Proof.
  intros x n [Hf Hv]. unfold counts, cap in *. destruct (Z_le_gt_dec (2 ^ 24) (Z.of_nat n)) as [L|L].
  - rewrite Z.min_r in Hv by lia. rewrite Z.min_r by lia. rewrite at_cap by assumption. auto.
  - rewrite Z.min_l in Hv by lia. rewrite Z.min_l by lia. destruct (val_of_Z 1 ltac:(lia)) as [V1 F1].
    assert (E : val x + val (of_Z 1) = IZR (Z.of_nat (S n))). { rewrite Hv, V1, <- plus_IZR. f_equal. lia. }
    destruct (fadd_correct x (of_Z 1) Hf F1) as [A B]; [rewrite E; apply small_Z; lia|]. split; [exact B|]. rewrite A, E. apply rnd_id, F32_Z. lia.
Qed.

Section Count.
Context {G : Type} (hit : G * list (tensor F) -> outcome bool).
Lemma count_all : forall records flags acc tot h t, counts acc h -> counts tot t -> Forall2 (fun r b => hit r = Ok b) records flags ->
  exists x y, count hit (-1) acc tot records = Ok (fdiv x y) /\ counts x (h + hits flags) /\ counts y (t + length records).
Proof.
  intros records flags acc tot h t Ha Ht H. revert acc tot h t Ha Ht. induction H as [|r b records flags E H IH]; intros acc tot h t Ha Ht; cbn [count].
  - exists acc, tot. cbn. rewrite !Nat.add_0_r. auto.
  - rewrite E. change (-1 <? 0)%Z with true. cbn [orb obind].
    destruct (IH (if b then fadd acc (of_Z 1) else acc) (fadd tot (of_Z 1)) (if b then S h else h) (S t)) as (x & y & A & B & C).
    + destruct b; [now apply counts_S|exact Ha].
    + now apply counts_S.
    + exists x, y. split; [exact A|]. unfold hits in *. cbn [filter length]. split; [|now replace (t + S (length records))%nat with (S t + length records)%nat by lia].
      destruct b; cbn [length]; [now replace (h + S (length (filter (fun b => b) flags)))%nat with (S h + length (filter (fun b => b) flags))%nat by lia|exact B].
Qed.
Lemma limit_above : forall t limit, (Z.of_nat t < limit < 2 ^ 31)%Z -> (Z.of_nat t < 2 ^ 24)%Z -> forall tot, counts tot t -> flt tot (of_Z limit) = true.
Proof.
  intros t limit H Ht tot [Hf Hv]. unfold cap in Hv. rewrite Z.min_l in Hv by lia.
  assert (M : Rabs (rnd (IZR limit)) < max32).
  { rewrite Rabs_pos_eq by (apply rnd_ge0, (IZR_le 0); lia). eapply Rle_lt_trans; [|exact big32]. apply rnd_le_F; [apply F32_bpow; lia|]. change (bpow radix2 31) with (IZR (2 ^ 31)). apply IZR_le. lia. }
  destruct (of_Z_correct limit M) as [V B]. apply flt_true; [exact Hf|exact B|]. rewrite Hv, V.
  destruct (Z_le_gt_dec limit (2 ^ 24)) as [L|L].
  - rewrite rnd_id by (apply F32_Z; lia). apply IZR_lt. lia.
  - apply Rlt_le_trans with (IZR (2 ^ 24)); [apply IZR_lt; lia|]. apply rnd_ge_F; [apply F32_Z; lia|]. apply IZR_le. lia.
Qed.
Lemma limit_reached : forall t, (Z.of_nat t <= 2 ^ 24)%Z -> forall tot, counts tot t -> flt tot (of_Z (Z.of_nat t)) = false.
Proof.
  intros t H tot [Hf Hv]. unfold cap in Hv. rewrite Z.min_l in Hv by lia. destruct (val_of_Z (Z.of_nat t) ltac:(lia)) as [V B]. apply not_true_is_false. intros X. apply flt_true in X; [|exact Hf|exact B]. rewrite Hv, V in X. lra.
Qed.
Lemma count_limit : forall limit records acc tot t, (0 <= limit < 2 ^ 31)%Z -> (Z.of_nat t <= limit)%Z -> counts tot t ->
  (Z.of_nat (t + length (firstn (Z.to_nat limit - t) records)) <= 2 ^ 24)%Z ->
  count hit limit acc tot records = count hit (-1) acc tot (firstn (Z.to_nat limit - t) records).
Proof.
  intros limit records. induction records as [|r records IH]; intros acc tot t H Ht Hc Hn.
  - now rewrite firstn_nil.
  - cbn [count]. destruct (Z.ltb_spec limit 0) as [L|_]; [lia|]. cbn [orb]. destruct (Z_lt_ge_dec (Z.of_nat t) limit) as [L|L].
    + replace (Z.to_nat limit - t)%nat with (S (Z.to_nat limit - S t))%nat in * by lia. cbn [firstn length] in Hn. rewrite limit_above with (t := t) by (auto; lia). cbn [firstn count].
      change (-1 <? 0)%Z with true. cbn [orb]. destruct (hit r) as [b| |]; try reflexivity. cbn [obind]. apply IH; [exact H|lia|now apply counts_S|]. replace (S t + length (firstn (Z.to_nat limit - S t) records))%nat with (t + S (length (firstn (Z.to_nat limit - S t) records)))%nat by lia. exact Hn.
    + replace (Z.to_nat limit - t)%nat with 0%nat in * by lia. cbn [firstn count]. replace limit with (Z.of_nat t) by lia. rewrite limit_reached; [reflexivity| |exact Hc]. cbn [firstn length] in Hn. lia.
Qed.
Lemma fraction : forall x y h n, counts x h -> counts y n -> (h <= n)%nat -> (0 < n)%nat -> (Z.of_nat n <= 2 ^ 24)%Z -> is_fraction (fdiv x y) h n.
Proof.
  intros x y h n [Fx Vx] [Fy Vy] Hh Hn Hl. unfold cap in *. rewrite Z.min_l in * by lia. rewrite <- INR_IZR_INZ in Vx, Vy.
  assert (Pn : 0 < INR n) by now apply lt_0_INR. assert (Ph : 0 <= INR h) by apply pos_INR. assert (Q : INR h <= INR n) by now apply le_INR.
  assert (B0 : 0 <= INR h / INR n) by (apply Rmult_le_pos; [exact Ph|left; now apply Rinv_0_lt_compat]).
  assert (B1 : INR h / INR n <= 1) by (apply (Rmult_le_reg_r (INR n)); [exact Pn|]; unfold Rdiv; rewrite Rmult_assoc, Rinv_l by lra; lra).
  destruct (fdiv_correct x y Fx) as [A B]; [lra| |].
  - rewrite Vx, Vy. rewrite Rabs_pos_eq by now apply rnd_ge0. apply Rle_lt_trans with 1; [now apply rnd_le_F; [apply F32_1|]|]. change 1 with (bpow radix2 0). apply bpow_lt. lia.
  - unfold is_fraction. split; [exact B|]. rewrite A, Vx, Vy. reflexivity.
Qed.
Lemma hits_le : forall flags, (hits flags <= length flags)%nat.
Proof. intros flags. unfold hits. induction flags as [|b flags IH]; [auto|]. cbn [filter]. destruct b; cbn [length]; lia. Qed.
Lemma count_tested : forall limit records flags, (limit < 2 ^ 31)%Z -> tested limit records <> [] -> (Z.of_nat (length (tested limit records)) <= 2 ^ 24)%Z ->
  Forall2 (fun r b => hit r = Ok b) (tested limit records) flags ->
  exists x, count hit limit (of_Z 0) (of_Z 0) records = Ok x /\ is_fraction x (hits flags) (length (tested limit records)).
Proof.
  intros limit records flags Hl Hn Hs H.
  assert (E : count hit limit (of_Z 0) (of_Z 0) records = count hit (-1) (of_Z 0) (of_Z 0) (tested limit records)).
  { unfold tested in *. destruct (Z.ltb_spec limit 0) as [L|L].
    - clear -L. generalize (of_Z 0) at 1 3. generalize (of_Z 0). induction records as [|r records IH]; intros tot acc; [reflexivity|]. cbn [count]. destruct (Z.ltb_spec limit 0) as [_|X]; [|lia]. change (-1 <? 0)%Z with true. cbn [orb]. destruct (hit r); [|reflexivity|reflexivity]. cbn [obind]. apply IH.
    - rewrite <- (Nat.sub_0_r (Z.to_nat limit)). apply count_limit; [lia|lia|exact counts_0|]. rewrite Nat.sub_0_r. exact Hs. }
  rewrite E. destruct (count_all _ _ _ _ _ _ counts_0 counts_0 H) as (x & y & A & B & C). cbn [Nat.add] in B, C. exists (fdiv x y). split; [exact A|]. apply fraction; auto.
  - assert (X : length (tested limit records) = length flags) by (clear - H; induction H; cbn; congruence). rewrite X. apply hits_le.
  - destruct (tested limit records); [contradiction|cbn; lia].
Qed.
(** From 2^24 hits on the quotient is 1. *)
Lemma count_many : forall records flags, Forall2 (fun r b => hit r = Ok b) records flags -> (2 ^ 24 <= Z.of_nat (hits flags))%Z ->
  exists x, count hit (-1) (of_Z 0) (of_Z 0) records = Ok x /\ finite x = true /\ val x = 1.
Proof.
  intros records flags H Hh. destruct (count_all _ _ _ _ _ _ counts_0 counts_0 H) as (x & y & A & [Fx Vx] & [Fy Vy]). cbn [Nat.add] in Vx, Vy. exists (fdiv x y). split; [exact A|].
  assert (X : length records = length flags) by (clear - H; induction H; cbn; congruence). pose proof (hits_le flags) as L. unfold cap in *. rewrite Z.min_r in Vx, Vy by lia.
  assert (P : 0 < IZR (2 ^ 24)) by (apply (IZR_lt 0); reflexivity). assert (Q : val x / val y = 1) by (rewrite Vx, Vy; apply Rinv_r; lra).
  destruct (fdiv_correct x y Fx) as [B C]; [lra| |].
  - rewrite Q, rnd_id by exact F32_1. rewrite Rabs_R1. change 1 with (bpow radix2 0). apply bpow_lt. lia.
  - split; [exact C|]. rewrite B, Q. apply rnd_id, F32_1.
Qed.
End Count.

(** ** Rounded values *)
Lemma std_round_val : forall x, finite x = true -> val (std_round x) = IZR (nearest x) /\ finite (std_round x) = true.
Proof.
  intros x H. destruct (Bnearbyint_correct 24 128 emax_ok unop_nan_pl32 mode_NA x) as (A & B & _). unfold std_round. split.
  - rewrite A. unfold round, F2R, scaled_mantissa, cexp, FIX_exp. cbn [Fnum Fexp round_mode]. rewrite !Rmult_1_r. reflexivity.
  - unfold finite. rewrite B. exact H.
Qed.
Lemma rough_integers : forall x y a b, finite x = true -> finite y = true -> val x = IZR a -> val y = IZR b -> roughlyEqual x y = true <-> a = b.
Proof.
  intros x y a b Fx Fy Vx Vy.
  assert (Ce : finite thousand_epsilon = true /\ 0 < val thousand_epsilon < 1).
  { split; [reflexivity|]. pose proof (binary_normalize_correct 24 128 prec_ok emax_ok mode_NE 1000 (-23) false) as C.
    assert (E : F2R (Float radix2 1000 (-23)) = 1000 * bpow radix2 (-23)) by reflexivity. rewrite E in C. assert (B : bpow radix2 (-23) = / 8388608) by reflexivity. rewrite B in C.
    assert (Fm : F32 (1000 * / 8388608)). { rewrite <- B. change 1000 with (IZR 1000). rewrite <- E. apply generic_format_FLT. exists (Float radix2 1000 (-23)); [reflexivity|cbn; lia|cbn; lia]. }
    cbn [round_mode] in C. rewrite rnd_id in C by exact Fm. rewrite Rlt_bool_true in C.
    - destruct C as (C & _). unfold thousand_epsilon. rewrite C. lra.
    - rewrite Rabs_pos_eq by lra. apply Rlt_trans with 1; [lra|]. change 1 with (bpow radix2 0). apply bpow_lt. lia. }
  assert (Cs : finite smallest_normal = true /\ 0 < val smallest_normal < 1).
  { split; [reflexivity|]. assert (E : val smallest_normal = bpow radix2 (-126)).
    { pose proof (binary_normalize_correct 24 128 prec_ok emax_ok mode_NE 1 (-126) false) as C. assert (E : F2R (Float radix2 1 (-126)) = bpow radix2 (-126)) by (unfold F2R; cbn [Fnum Fexp]; lra). rewrite E in C. cbn [round_mode] in C.
      rewrite rnd_id in C by (apply F32_bpow; lia). rewrite Rlt_bool_true in C; [apply C|]. rewrite Rabs_pos_eq by apply bpow_ge_0. apply bpow_lt. lia. }
    rewrite E. split; [apply bpow_gt_0|]. change 1 with (bpow radix2 0). apply bpow_lt. lia. }
  destruct Ce as [Fe Ve], Cs as [Fs Vs]. unfold roughlyEqual. cbv zeta.
  pose proof (Bminus_correct 24 128 prec_ok emax_ok binop_nan_pl32 mode_NE x y Fx Fy) as M. change (Bminus 24 128 prec_ok emax_ok binop_nan_pl32 mode_NE x y) with (fsub x y) in M. cbn [round_mode] in M.
  rewrite Vx, Vy in M. rewrite <- minus_IZR in M. destruct (Rlt_bool_spec (Rabs (rnd (IZR (a - b)))) max32) as [L|L].
  - destruct M as (V & Ff & _). change (is_finite 24 128 (fsub x y) = true) with (finite (fsub x y) = true) in Ff.
    assert (Va : val (b32_abs (fsub x y)) = Rabs (rnd (IZR (a - b)))) by (unfold b32_abs; rewrite B2R_Babs, V; reflexivity).
    assert (Fa : finite (b32_abs (fsub x y)) = true) by (unfold finite, b32_abs; rewrite is_finite_Babs; exact Ff).
    rewrite orb_true_iff, (fle_true _ _ Fa Fe), (flt_true _ _ Fa Fs), Va. split.
    + intros H. destruct (Z.eq_dec a b) as [E|N]; [exact E|exfalso]. assert (1 <= Rabs (rnd (IZR (a - b)))) as G; [|lra].
      destruct (Z_lt_ge_dec a b) as [K|K].
      * rewrite <- Rabs_Ropp. eapply Rle_trans; [|apply RRle_abs]. assert (rnd (IZR (a - b)) <= -1) as W; [|lra]. apply rnd_le_F; [change (-1) with (IZR (-1)); apply F32_Z; lia|]. change (-1) with (IZR (-1)). apply IZR_le. lia.
      * eapply Rle_trans; [|apply RRle_abs]. apply rnd_ge_F; [apply F32_1|]. apply (IZR_le 1). lia.
    + intros ->. left. rewrite Z.sub_diag, rnd_0, Rabs_R0. lra.
  - destruct M as [M _]. assert (I : exists s, fsub x y = B754_infinity 24 128 s).
    { revert M. unfold binary_overflow. cbn [overflow_to_inf]. destruct (fsub x y); cbn; intros M; try discriminate. eauto. }
    destruct I as [s ->]. cbn [b32_abs Babs]. split.
    + intros H. exfalso. apply orb_true_iff in H as [H|H]; destruct s; vm_compute in H; discriminate.
    + intros ->. rewrite Z.sub_diag, rnd_0, Rabs_R0 in L. pose proof (bpow_gt_0 radix2 128). lra.
Qed.
Lemma rough_rounded : forall x y, finite x = true -> finite y = true -> roughlyEqual (std_round x) (std_round y) = true <-> nearest x = nearest y.
Proof.
  intros x y Fx Fy. destruct (std_round_val x Fx) as [A B], (std_round_val y Fy) as [C D]. now apply rough_integers.
Qed.

(** ** Texts *)
Section Texts.
Context {G : Type} (predict : G -> outcome (list (tensor F))).
Lemma same_texts_ok : forall prediction actual decoders i,
  (forall j d, nth_error decoders j = Some d -> exists p a s t, nth_error prediction (i + j) = Some p /\ nth_error actual (i + j) = Some a /\ d p = Ok s /\ d a = Ok t) ->
  exists b, same_texts decoders i prediction actual = Ok b /\
    (b = true <-> forall j d, nth_error decoders j = Some d -> exists p a s, nth_error prediction (i + j) = Some p /\ nth_error actual (i + j) = Some a /\ d p = Ok s /\ d a = Ok s).
Proof.
  intros prediction actual decoders. induction decoders as [|d decoders IH]; intros i H; cbn [same_texts].
  - exists true. split; [reflexivity|]. split; [|auto]. intros _ j d E. destruct j; discriminate.
  - destruct (H 0%nat d eq_refl) as (p & a & s & t & Hp & Ha & Es & Et). rewrite Nat.add_0_r in Hp, Ha. unfold vec_at. rewrite Hp, Ha. cbn [obind]. rewrite Es, Et. cbn [obind].
    destruct (list_eq_dec Ascii.ascii_dec s t) as [<-|N].
    + destruct (IH (S i)) as (b & E & Q). { intros j d' Hj. destruct (H (S j) d' Hj) as (p' & a' & s' & t' & X). rewrite Nat.add_succ_r in X. exists p', a', s', t'. exact X. }
      exists b. split; [exact E|]. rewrite Q. split.
      * intros X j d' Hj. destruct j as [|j]; [injection Hj as <-; exists p, a, s; rewrite Nat.add_0_r; auto|]. rewrite Nat.add_succ_r. now apply X.
      * intros X j d' Hj. specialize (X (S j) d' Hj). rewrite Nat.add_succ_r in X. exact X.
    + exists false. split; [reflexivity|]. split; [discriminate|]. intros X. destruct (X 0%nat d eq_refl) as (p' & a' & s' & Hp' & Ha' & E1 & E2). rewrite Nat.add_0_r in *. congruence.
Qed.
Lemma categorical_hit_ok : forall decoders r, decodable predict decoders r -> exists b, categorical_hit predict decoders r = Ok b /\ (b = true <-> right predict decoders r).
Proof.
  intros decoders r (prediction & E & H). unfold categorical_hit. rewrite E. cbn [obind]. destruct (same_texts_ok prediction (snd r) decoders 0 H) as (b & A & B). exists b. split; [exact A|]. rewrite B. split.
  - intros X. exists prediction. auto.
  - intros (q & Eq & X). rewrite E in Eq. injection Eq as <-. exact X.
Qed.
End Texts.

Lemma flags_exist : forall {A} (f : A -> outcome bool) (P : A -> Prop) l, (forall x, In x l -> exists b, f x = Ok b /\ (b = true <-> P x)) ->
  exists flags, flagged P l flags /\ Forall2 (fun x b => f x = Ok b) l flags.
Proof.
  intros A f P. induction l as [|x l IH]; intros H; [exists []; split; constructor|]. destruct (H x (or_introl eq_refl)) as (b & E & Q). destruct IH as (flags & X & Y); [intros y Hy; apply H; now right|].
  exists (b :: flags). split; constructor; auto.
Qed.
Lemma flagged_fun : forall {A} (f : A -> outcome bool) (P : A -> Prop) l flags, (forall x, In x l -> exists b, f x = Ok b /\ (b = true <-> P x)) -> flagged P l flags -> Forall2 (fun x b => f x = Ok b) l flags.
Proof.
  intros A f P l flags H F. induction F as [|x b l flags Q F IH]; constructor.
  - destruct (H x (or_introl eq_refl)) as (b' & E & Q'). rewrite E. f_equal. destruct b, b'; try reflexivity; [apply Q', Q; reflexivity|symmetry; apply Q, Q'; reflexivity].
  - apply IH. intros y Hy. apply H. now right.
Qed.

(** ** Several outputs *)
Lemma flat_row : forall n t w j, row_of n t w -> (j < n)%nat -> flat t j = Ok (w j).
Proof.
  intros n t w j (R1 & C1 & E) H. unfold flat. rewrite R1, Nat.mul_1_r. destruct (Nat.eqb_spec (cols t) 0); [lia|]. cbv zeta.
  rewrite Nat.mod_small by lia. rewrite Nat.div_small, Nat.mod_small by lia. now apply E.
Qed.
Lemma same_values_rows : forall n p a u v, row_of n p u -> row_of n a v -> forall k j, (j + k <= n)%nat ->
  exists b, same_values k j p a = Ok b /\ (b = true <-> forall i, (j <= i < j + k)%nat -> nearest (u i) = nearest (v i)).
Proof.
  intros n p a u v Hp Ha k. induction k as [|k IH]; intros j H; cbn [same_values].
  - exists true. split; [reflexivity|]. split; [intros _ i Hi; lia|reflexivity].
  - rewrite (flat_row n p u j Hp) by lia. cbn [obind]. rewrite (flat_row n a v j Ha) by lia. cbn [obind].
    destruct Hp as (P1 & P2 & P3), Ha as (A1 & A2 & A3). destruct (P3 j ltac:(lia)) as [_ Fu], (A3 j ltac:(lia)) as [_ Fv].
    pose proof (rough_rounded (u j) (v j) Fu Fv) as Q. destruct (roughlyEqual _ _).
    + destruct (IH (S j) ltac:(lia)) as (b & E & B). exists b. split; [exact E|]. rewrite B. split; intros X i Hi; [destruct (Nat.eq_dec i j) as [->|]; [now apply Q|apply X; lia]|apply X; lia].
    + exists false. split; [reflexivity|]. split; [discriminate|]. intros X. apply Q. apply X. lia.
Qed.
Lemma binary_hit_rows : forall {G} (predict : G -> outcome (list (tensor F))) n r ps u v, predict (fst r) = Ok ps -> length ps = n ->
  (forall i, (i < n)%nat -> exists p a, nth_error ps i = Some p /\ nth_error (snd r) i = Some a /\ row_of n p (u i) /\ row_of n a (v i)) ->
  exists b, binary_hit predict n r = Ok b /\ (b = true <-> forall i j, (i < n)%nat -> (j < n)%nat -> nearest (u i j) = nearest (v i j)).
Proof.
  intros G predict n r ps u v Ep El H. unfold binary_hit. rewrite Ep. cbn [obind]. rewrite El.
  assert (L : forall m i b0, (i + m <= n)%nat -> exists b, loop m i (fun i matched_all =>
      do best_prediction <- vec_at ps i; do best_actual <- vec_at (snd r) i;
      do same <- same_values n 0 best_prediction best_actual; Ok (matched_all && same)) b0 = Ok b /\
      (b = true <-> b0 = true /\ forall k j, (i <= k < i + m)%nat -> (j < n)%nat -> nearest (u k j) = nearest (v k j))).
  { induction m as [|m IH]; intros i b0 Hi; cbn [loop].
    - exists b0. split; [reflexivity|]. split; [intros ->; split; [reflexivity|intros; lia]|tauto].
    - destruct (H i ltac:(lia)) as (p & a & E1 & E2 & Rp & Ra). unfold vec_at at 1 2. rewrite E1, E2. cbn [obind].
      destruct (same_values_rows n p a (u i) (v i) Rp Ra n 0 ltac:(lia)) as (s & Es & Bs). rewrite Es. cbn [obind].
      destruct (IH (S i) (b0 && s) ltac:(lia)) as (b & E & B). exists b. split; [exact E|]. rewrite B, andb_true_iff, Bs. split.
      + intros [[-> X] Y]. split; [reflexivity|]. intros k j Hk Hj. destruct (Nat.eq_dec k i) as [->|]; [apply X; lia|apply Y; lia].
      + intros [-> X]. split; [split; [reflexivity|intros j Hj; apply X; lia]|intros k j Hk Hj; apply X; lia]. }
  destruct (L n 0%nat true ltac:(lia)) as (b & E & B). exists b. split; [exact E|]. rewrite B. split; [intros [_ X] i j Hi Hj; apply X; lia|intros X; split; [reflexivity|intros k j Hk Hj; apply X; lia]].
Qed.
