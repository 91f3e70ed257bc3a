(** Proofs about normalization in [float]. *)
From Coq Require Import List Arith Bool ZArith Reals Lia Lra.
From Flocq Require Import Core Relative Plus_error IEEE754.BinarySingleNaN IEEE754.Binary IEEE754.Bits.
From Verif Require Import Outcome Tensor_Model Tensor_Spec F32_Model F32_Proofs Reduce_Model Activation_Model Layer_Model FloatNet_Model FloatNet_Spec FloatNet_Proofs FloatSoft_Proofs FloatAct_Proofs FloatNet_Props FloatOpt_Model FloatOpt_Proofs.
From Verif Require Reduce_Spec Reduce_Proofs Layer_Props.
Import ListNotations.
Local Open Scope R_scope.

(** ** The exact spread *)
Definition spread (N : R) (s : R * R) (value : R) : R * R :=
  let '(mean, M2) := s in let delta := value - mean in let mean := mean + delta / N in (mean, M2 + delta * (value - mean)).
Lemma spread_grows : forall N l m q i, 2 <= N -> 0 <= q -> (1 - / N) * ((N * m) * (N * m)) <= INR i * q -> INR (i + length l) <= N ->
  let '(m', q') := fold_left (spread N) l (m, q) in
  q <= q' /\ (1 - / N) * ((N * m') * (N * m')) <= INR (i + length l) * q' /\ forall v, In v l -> (1 - / N) * (v * v) <= 4 * q'.
Proof.
  intros N l. induction l as [|v l IH]; intros m q i HN Pq I L.
  - cbn [fold_left length In]. rewrite Nat.add_0_r. split; [lra|]. split; [exact I|]. intros v [].
  - cbn [fold_left]. set (c := 1 - / N) in *. assert (Pc : 1 / 2 <= c) by (subst c; assert (/ N <= / 2) by (apply Rinv_le_contravar; lra); lra).
    set (a := v - m) in *. assert (E : spread N (m, q) v = (m + a / N, q + c * (a * a))). { unfold spread. fold a. f_equal. subst c. unfold a. field. lra. } rewrite E. clear E.
    assert (Pa : 0 <= a * a) by apply Rle_0_sqr. assert (Pca : 0 <= c * (a * a)) by (apply Rmult_le_pos; lra). set (p := N * m) in *. assert (Ep : N * (m + a / N) = p + a) by (subst p; field; lra).
    assert (Pi : 0 <= INR i) by apply pos_INR. assert (Q : c * ((p + a) * (p + a)) <= INR (S i) * (q + c * (a * a))).
    { rewrite S_INR. assert (X : 0 <= q + INR i * (c * (a * a)) - 2 * c * (p * a)). { destruct (Req_dec (INR i) 0) as [Z|Z].
        - rewrite Z in *. assert (p * p = 0) by (assert (0 <= p * p) by apply Rle_0_sqr; assert (c * (p * p) <= 0) by lra; assert (1 / 2 * (p * p) <= c * (p * p)) by (apply Rmult_le_compat_r; lra); lra). apply Rsqr_0_uniq in H. rewrite H. lra.
        - assert (0 < INR i) by lra. apply (Rmult_le_reg_l (INR i)); [assumption|]. rewrite Rmult_0_r. assert (0 <= c * ((p - INR i * a) * (p - INR i * a))) by (apply Rmult_le_pos; [lra|apply Rle_0_sqr]).
          replace (INR i * (q + INR i * (c * (a * a)) - 2 * c * (p * a))) with (INR i * q + c * ((p - INR i * a) * (p - INR i * a)) - c * (p * p)) by ring. lra. }
      replace (c * ((p + a) * (p + a))) with (c * (p * p) + 2 * c * (p * a) + c * (a * a)) by ring. lra. }
    cbn [length] in L |- *. rewrite Nat.add_succ_r in L |- *. specialize (IH (m + a / N) (q + c * (a * a)) (S i) HN ltac:(lra)). rewrite Ep in IH. specialize (IH Q L). cbn [plus] in IH. destruct (fold_left (spread N) l (m + a / N, q + c * (a * a))) as [m' q']. destruct IH as (A1 & A2 & A3). split; [lra|]. split; [exact A2|].
    intros w [<-|Hw]; [|now apply A3]. assert (V : v = a + m) by (subst a; ring). assert (W : v * v <= 2 * (a * a) + 2 * (m * m)). { rewrite V. assert (0 <= (a - m) * (a - m)) by apply Rle_0_sqr. lra. }
    assert (M : c * (m * m) <= q). { assert (Nn : INR i <= N * N). { assert (INR i <= INR (S (i + length l))) by (apply le_INR; lia). assert (N * 1 <= N * N) by (apply Rmult_le_compat_l; lra). lra. } assert (T : N * N * (c * (m * m)) <= N * N * q). { replace (N * N * (c * (m * m))) with (c * (p * p)) by (subst p; ring). assert (INR i * q <= N * N * q) by (apply Rmult_le_compat_r; lra). lra. } apply (Rmult_le_reg_l (N * N)); [|exact T]. apply Rmult_lt_0_compat; lra. }
    assert (c * (v * v) <= c * (2 * (a * a) + 2 * (m * m))) by (apply Rmult_le_compat_l; lra). lra.
Qed.
(** The exact mean and sum stay in range. *)
Lemma spread_range : forall N B m q v, 1 <= N -> Rabs m <= B -> Rabs v <= B -> let '(m', q') := spread N (m, q) v in Rabs m' <= B /\ Rabs (v - m) <= 2 * B /\ Rabs (v - m') <= 2 * B /\ 0 <= q' - q <= 4 * (B * B).
Proof.
  intros N B m q v HN Hm Hv. unfold spread. set (t := / N). assert (Pt : 0 < t <= 1) by (subst t; split; [apply Rinv_0_lt_compat; lra|rewrite <- Rinv_1; apply Rinv_le_contravar; lra]). apply Rabs_le_inv in Hm. apply Rabs_le_inv in Hv. replace (m + (v - m) / N) with ((1 - t) * m + t * v) by (subst t; field; lra).
  assert (A : - B <= (1 - t) * m + t * v <= B). { assert ((1 - t) * m <= (1 - t) * B) by (apply Rmult_le_compat_l; lra). assert ((1 - t) * - B <= (1 - t) * m) by (apply Rmult_le_compat_l; lra). assert (t * v <= t * B) by (apply Rmult_le_compat_l; lra). assert (t * - B <= t * v) by (apply Rmult_le_compat_l; lra). lra. }
  split; [apply Rabs_le; lra|]. split; [apply Rabs_le; lra|]. split; [apply Rabs_le; lra|]. replace (q + (v - m) * (v - ((1 - t) * m + t * v)) - q) with ((1 - t) * ((v - m) * (v - m))) by ring.
  assert (0 <= (v - m) * (v - m)) by apply Rle_0_sqr. assert ((v - m) * (v - m) <= 4 * (B * B)). { replace ((v - m) * (v - m)) with (Rabs (v - m) * Rabs (v - m)) by (rewrite <- Rabs_mult; apply Rabs_pos_eq; assumption). replace (4 * (B * B)) with ((2 * B) * (2 * B)) by ring. apply Rmult_le_compat; try apply Rabs_pos; apply Rabs_le; lra. }
  split; [apply Rmult_le_pos; lra|]. apply Rle_trans with (1 * ((v - m) * (v - m))); [apply Rmult_le_compat_r; lra|lra].
Qed.

(** ** Arithmetic with [double] *)
Definition tiny64 : R := bpow radix2 (-1075).
Lemma tiny64_pos : 0 < tiny64. Proof. apply bpow_gt_0. Qed.
Lemma error64 : forall x, Rabs (rnd64 x - x) <= double_error * Rabs x + tiny64.
Proof.
  intros x. destruct (@error_N_FLT radix2 (-1074) 53 eq_refl (fun z => negb (Z.even z)) x) as (e & h & He & Hh & _ & E). change (FLT_exp (-1074) 53) with fexp64 in E. rewrite E. replace (x * (1 + e) + h - x) with (e * x + h) by ring.
  eapply Rle_trans; [apply Rabs_triang|]. rewrite Rabs_mult. apply Rplus_le_compat; [apply Rmult_le_compat_r; [apply Rabs_pos|]; rewrite unit64_is; exact He|]. eapply Rle_trans; [exact Hh|]. unfold tiny64. change (-1075)%Z with (-1 + -1074)%Z. rewrite bpow_plus. change (bpow radix2 (-1)) with (/ 2). lra.
Qed.
Lemma sum_error64 : forall x y, F64 x -> F64 y -> Rabs (rnd64 (x + y) - (x + y)) <= double_error * Rabs (x + y).
Proof. intros x y Fx Fy. destruct (rounded_sum64 x y Fx Fy) as (e & He & E). rewrite E. replace ((x + y) * (1 + e) - (x + y)) with (e * (x + y)) by ring. rewrite Rabs_mult. apply Rmult_le_compat_r; [apply Rabs_pos|exact He]. Qed.
Lemma F64_val : forall x, F64 (val64 x). Proof. intros x. apply generic_format_B2R. Qed.
Lemma in_range64 : forall x, Rabs x <= 2 ^ 500 -> Rabs (rnd64 x) < bpow radix2 1024.
Proof.
  intros x H. assert (P : 2 ^ 500 = bpow radix2 500) by (rewrite <- IZR_Zpower by lia; rewrite pow_IZR; reflexivity). rewrite P in H. apply Rle_lt_trans with (bpow radix2 500); [|apply bpow_lt; lia]. apply Rabs_le_inv in H. assert (Fb : F64 (bpow radix2 500)) by (apply F64_bpow; lia).
  apply Rabs_le. split; [rewrite <- (rnd64_id (- bpow radix2 500)) by (now apply generic_format_opp); apply rnd64_le; lra|rewrite <- (rnd64_id (bpow radix2 500)) by exact Fb; apply rnd64_le; lra].
Qed.
Lemma dadd_is : forall x y, finite64 x = true -> finite64 y = true -> Rabs (val64 x + val64 y) <= 2 ^ 500 -> finite64 (dadd x y) = true /\ val64 (dadd x y) = rnd64 (val64 x + val64 y).
Proof. intros x y Fx Fy H. apply (add64_is x y Fx Fy). now apply in_range64. Qed.
Lemma dsub_is : forall x y, finite64 x = true -> finite64 y = true -> Rabs (val64 x - val64 y) <= 2 ^ 500 -> finite64 (dsub x y) = true /\ val64 (dsub x y) = rnd64 (val64 x - val64 y).
Proof. intros x y Fx Fy H. pose proof (Bminus_correct 53 1024 eq_refl eq_refl binop_nan_pl64 mode_NE x y Fx Fy) as C. cbn [round_mode] in C. rewrite Rlt_bool_true in C by (now apply in_range64). destruct C as (A & B & _). split; assumption. Qed.
Lemma dmul_is : forall x y, finite64 x = true -> finite64 y = true -> Rabs (val64 x * val64 y) <= 2 ^ 500 -> finite64 (dmul x y) = true /\ val64 (dmul x y) = rnd64 (val64 x * val64 y).
Proof. intros x y Fx Fy H. pose proof (Bmult_correct 53 1024 eq_refl eq_refl binop_nan_pl64 mode_NE x y) as C. cbn [round_mode] in C. rewrite Rlt_bool_true in C by (now apply in_range64). rewrite Fx, Fy in C. destruct C as (A & B & _). split; assumption. Qed.
Lemma ddiv_is : forall x y, finite64 x = true -> val64 y <> 0 -> Rabs (val64 x / val64 y) <= 2 ^ 500 -> finite64 (ddiv x y) = true /\ val64 (ddiv x y) = rnd64 (val64 x / val64 y).
Proof. intros x y Fx Ny H. pose proof (Bdiv_correct 53 1024 eq_refl eq_refl binop_nan_pl64 mode_NE x y Ny) as C. cbn [round_mode] in C. rewrite Rlt_bool_true in C by (now apply in_range64). rewrite Fx in C. destruct C as (A & B & _). split; assumption. Qed.
Lemma dsqrt_is : forall x, finite64 x = true -> 0 <= val64 x -> finite64 (dsqrt x) = true /\ val64 (dsqrt x) = rnd64 (sqrt (val64 x)).
Proof.
  intros x Fx P. pose proof (Bsqrt_correct 53 1024 eq_refl eq_refl unop_nan_pl64 mode_NE x) as (A & B & _). cbn [round_mode] in A. split; [|exact A]. unfold dsqrt, b64_sqrt. rewrite B. destruct x as [s|s|s pl e|s m e b]; try discriminate Fx; [reflexivity|]. destruct s; [|reflexivity]. exfalso. assert (N : B2R 53 1024 (B754_finite 53 1024 true m e b) < 0) by (apply F2R_lt_0; reflexivity). lra.
Qed.
Lemma double_of_is : forall n, (Z.of_nat n <= 2 ^ 53)%Z -> finite64 (double_of n) = true /\ val64 (double_of n) = INR n.
Proof.
  intros n H. unfold double_of. pose proof (binary_normalize_correct 53 1024 prec64_ok emax64_ok mode_NE (Z.of_nat n) 0 false) as C. cbn [round_mode] in C. assert (E : F2R (Float radix2 (Z.of_nat n) 0) = INR n) by (unfold F2R; cbn [Fnum Fexp bpow]; rewrite Rmult_1_r; symmetry; apply INR_IZR_INZ). rewrite E in C.
  assert (G : rnd64 (INR n) = INR n). { apply rnd64_id. destruct (Z.eq_dec (Z.of_nat n) (2 ^ 53)) as [Q|Q]; [rewrite INR_IZR_INZ, Q; change 2%Z with (radix_val radix2); rewrite IZR_Zpower by lia; apply F64_bpow; lia|]. rewrite INR_IZR_INZ, <- (Rmult_1_r (IZR (Z.of_nat n))). change 1 with (bpow radix2 0). apply generic_format_FLT. exists (Float radix2 (Z.of_nat n) 0); [reflexivity|change (Z.abs (Z.of_nat n) < 2 ^ 53)%Z; lia|change (-1074 <= 0)%Z; lia]. }
  rewrite G in C. rewrite Rlt_bool_true in C; [destruct C as (A & B & _); split; assumption|]. rewrite Rabs_pos_eq by apply pos_INR. rewrite INR_IZR_INZ. apply Rle_lt_trans with (bpow radix2 53); [rewrite <- IZR_Zpower by lia; apply IZR_le; exact H|apply bpow_lt; lia].
Qed.
Lemma deq_is : forall x y, finite64 x = true -> finite64 y = true -> deq x y = true <-> val64 x = val64 y.
Proof. intros x y Fx Fy. unfold deq, b64_compare. rewrite (Bcompare_correct 53 1024 x y Fx Fy). split; [destruct (Rcompare_spec (val64 x) (val64 y)); try discriminate; auto|intros E; rewrite Rcompare_Eq by exact E; reflexivity]. Qed.

(** ** One element in [double] and exactly *)
Lemma double_value : double_error = / 9007199254740992.
Proof. rewrite unit64_is. change (bpow radix2 (- (53) + 1)) with (/ 4503599627370496). lra. Qed.
Lemma convex : forall t a b x, 0 <= t <= 1 -> Rabs a <= x -> Rabs b <= x -> Rabs ((1 - t) * a + t * b) <= x.
Proof.
  intros t a b x Ht Ha Hb. apply Rabs_le_inv in Ha. apply Rabs_le_inv in Hb. assert ((1 - t) * a <= (1 - t) * x) by (apply Rmult_le_compat_l; lra). assert ((1 - t) * - x <= (1 - t) * a) by (apply Rmult_le_compat_l; lra). assert (t * b <= t * x) by (apply Rmult_le_compat_l; lra). assert (t * - x <= t * b) by (apply Rmult_le_compat_l; lra). apply Rabs_le. lra.
Qed.
Lemma by_error : forall a b x e, Rabs (a - b) <= e -> Rabs b <= x -> Rabs a <= x + e.
Proof. intros a b x e H1 H2. apply Rabs_le_inv in H1. apply Rabs_le_inv in H2. apply Rabs_le. lra. Qed.
Lemma product_bound : forall a b x y, Rabs a <= x -> Rabs b <= y -> Rabs (a * b) <= x * y.
Proof. intros a b x y Ha Hb. rewrite Rabs_mult. apply Rmult_le_compat; try apply Rabs_pos; assumption. Qed.
Section Step.
Context (n : nat) (B e Y : R).
Notation N := (INR n).
Context (Hn : 2 <= N <= 1048576) (HB : 0 <= B) (He : 0 <= e) (HY : Y = B + e) (Range : / 2 ^ 60 <= Y <= 2 ^ 60).
Definition drift : R := 8 * (/ 9007199254740992 * Y).
Definition slip : R := 9 * (Y * e) + 60 * / 9007199254740992 * (N * (Y * Y)).
Context (Small : slip <= Y * Y).
Definition follows (k : nat) (s : D * D) (s' : R * R) : Prop :=
  finite64 (fst s) = true /\ finite64 (snd s) = true /\ Rabs (fst s') <= B /\ Rabs (val64 (fst s) - fst s') <= e + INR k * drift /\
  0 <= snd s' <= INR k * (4 * (Y * Y)) /\ Rabs (val64 (snd s) - snd s') <= INR k * slip.
Lemma tiny64_below : tiny64 <= / 9007199254740992 * / 1000 * Y /\ tiny64 <= / 9007199254740992 * / 1000 * (Y * Y).
Proof.
  assert (P : 0 < / 2 ^ 60) by (apply Rinv_0_lt_compat; apply pow_lt; lra). assert (T : tiny64 <= / 9007199254740992 * / 1024 * (/ 2 ^ 60 * / 2 ^ 60)).
  { unfold tiny64. assert (E : / 9007199254740992 * / 1024 * (/ 2 ^ 60 * / 2 ^ 60) = bpow radix2 (-183)). { assert (X : / 2 ^ 60 = bpow radix2 (-60)) by (change (-60)%Z with (Z.opp 60); rewrite bpow_opp; f_equal; rewrite <- IZR_Zpower by lia; rewrite pow_IZR; reflexivity). rewrite X. change (/ 9007199254740992) with (bpow radix2 (-53)). change (/ 1024) with (bpow radix2 (-10)). rewrite <- !bpow_plus. reflexivity. } rewrite E. apply bpow_le. lia. }
  assert (Q : / 2 ^ 60 * / 2 ^ 60 <= Y * Y) by (apply Rmult_le_compat; lra). assert (Q2 : / 2 ^ 60 * / 2 ^ 60 <= / 2 ^ 60 * 1) by (apply Rmult_le_compat_l; [lra|]; rewrite <- Rinv_1; apply Rinv_le_contravar; [lra|apply pow_R1_Rle; lra]). set (z := / 2 ^ 60 * / 2 ^ 60) in *. assert (0 < z) by (subst z; now apply Rmult_lt_0_compat). clearbody z. split; lra.
Qed.
Lemma room : 4 * Y <= 2 ^ 500 /\ 8388608 * (Y * Y) <= 2 ^ 500 /\ 0 <= Y * Y.
Proof.
  assert (P : 0 < / 2 ^ 60) by (apply Rinv_0_lt_compat; apply pow_lt; lra). assert (Q : Y * Y <= 2 ^ 60 * 2 ^ 60) by (apply Rmult_le_compat; lra). rewrite <- pow_add in Q. assert (E : 8388608 * 2 ^ (60 + 60) <= 2 ^ 500) by (replace 8388608 with (2 ^ 23) by (rewrite pow_IZR; reflexivity); rewrite <- pow_add; apply Rle_pow; [lra|lia]).
  assert (4 * 2 ^ 60 <= 2 ^ 500) by (replace 4 with (2 ^ 2) by lra; rewrite <- pow_add; apply Rle_pow; [lra|lia]). split; [lra|]. split; [lra|]. apply Rmult_le_pos; lra.
Qed.
Lemma spread_step : forall k s s' y x, (S k <= n)%nat -> follows k s s' -> is_number y -> Rabs x <= B -> Rabs (number y - x) <= e -> follows (S k) (float_spread (double_of n) s y) (spread N s' x).
Proof.
  intros k [mh qh] [m q] y x Hk (Fm & Fq & Bm & Em & [Pq Bq] & Eq) Ny Bx Ey. cbn [fst snd] in *. pose proof (spread_range N B m q x ltac:(lra) Bm Bx) as SR. destruct (spread N (m, q) x) as [m' q'] eqn:Es. destruct SR as (Bm' & Bd & Bd2 & Bq').
  unfold spread in Es. injection Es as Em' Eq'. assert (Zn : (Z.of_nat n <= 2 ^ 53)%Z) by (apply le_IZR; rewrite <- INR_IZR_INZ; apply Rle_trans with 1048576; [lra|apply IZR_le; lia]). destruct (double_of_is n Zn) as [Fn Vn]. destruct (widen_is y Ny) as [Fy Vy].
  destruct tiny64_below as [T1 T2]. destruct room as (R1 & R2 & PYY). pose proof tiny64_pos as T0. assert (PY : 0 <= Y) by lra.
  assert (HK : 0 <= INR k /\ INR k + 1 <= N) by (split; [apply pos_INR|rewrite <- S_INR; now apply le_INR]). set (K := INR k) in *.
  assert (KY : 0 <= K * Y /\ K * Y + Y <= N * Y) by (split; [apply Rmult_le_pos; lra|replace (K * Y + Y) with ((K + 1) * Y) by ring; apply Rmult_le_compat_r; lra]). assert (NY : N * Y <= 1048576 * Y) by (apply Rmult_le_compat_r; lra). assert (NYY : 2 * (Y * Y) <= N * (Y * Y) <= 1048576 * (Y * Y)) by (split; apply Rmult_le_compat_r; lra). assert (KYY : 0 <= K * (Y * Y) /\ K * (Y * Y) + Y * Y <= N * (Y * Y)) by (split; [apply Rmult_le_pos; lra|replace (K * (Y * Y) + Y * Y) with ((K + 1) * (Y * Y)) by ring; apply Rmult_le_compat_r; lra]).
  assert (Pye : 0 <= Y * e) by (apply Rmult_le_pos; lra).
  unfold float_spread. set (yv := number y) in *. set (mv := val64 mh) in *. assert (By : Rabs yv <= Y) by (rewrite HY; apply by_error with x; assumption). assert (Bmh : Rabs mv <= 101 / 100 * Y) by (eapply Rle_trans; [apply (by_error mv m B _ Em Bm)|]; unfold drift in *; lra).
  assert (Bym : Rabs (yv - mv) <= 201 / 100 * Y) by (apply Rabs_le_inv in By; apply Rabs_le_inv in Bmh; apply Rabs_le; lra).
  destruct (dsub_is (widen y) mh Fy Fm) as [Fd Vd]; [rewrite Vy; fold yv mv; lra|]. rewrite Vy in Vd. fold yv mv in Vd. assert (E1 : Rabs (val64 (dsub (widen y) mh) - (yv - mv)) <= / 9007199254740992 * (201 / 100 * Y)). { rewrite Vd. eapply Rle_trans; [unfold Rminus at 2 3; apply sum_error64; [unfold yv; apply F64_F32, number_format|apply generic_format_opp; apply F64_val]|]. rewrite double_value. apply Rmult_le_compat_l; [lra|exact Bym]. }
  set (d := dsub (widen y) mh) in *. set (dv := val64 d) in *. assert (Bdv : Rabs dv <= 202 / 100 * Y) by (eapply Rle_trans; [apply (by_error dv (yv - mv) _ _ E1 Bym)|]; lra). clear Vd.
  assert (It : 0 < / N <= 1 / 2) by (split; [apply Rinv_0_lt_compat; lra|replace (1 / 2) with (/ 2) by lra; apply Rinv_le_contravar; lra]). assert (Bdn : Rabs (dv / N) <= 101 / 100 * Y). { unfold Rdiv. rewrite Rabs_mult, (Rabs_pos_eq (/ N)) by lra. apply Rle_trans with (202 / 100 * Y * (1 / 2)); [apply Rmult_le_compat; try lra; apply Rabs_pos|lra]. }
  destruct (ddiv_is d (double_of n) Fd) as [Fc Vc]; [rewrite Vn; lra|rewrite Vn; fold dv; lra|]. rewrite Vn in Vc. fold dv in Vc. pose proof (error64 (dv / N)) as E2. rewrite <- Vc in E2. rewrite double_value in E2. set (c := ddiv d (double_of n)) in *. set (cv := val64 c) in *. clear Vc.
  assert (Bcv : Rabs cv <= 102 / 100 * Y) by (eapply Rle_trans; [apply (by_error cv (dv / N) _ _ E2 Bdn)|]; lra). assert (Bmc : Rabs (mv + cv) <= 203 / 100 * Y) by (eapply Rle_trans; [apply Rabs_triang|]; lra).
  destruct (dadd_is mh c Fm Fc) as [Fm' Vm']; [fold mv cv; lra|]. fold mv cv in Vm'. assert (E3 : Rabs (val64 (dadd mh c) - (mv + cv)) <= / 9007199254740992 * (203 / 100 * Y)). { rewrite Vm'. eapply Rle_trans; [apply sum_error64; apply F64_val|]. rewrite double_value. apply Rmult_le_compat_l; [lra|exact Bmc]. } clear Vm'. set (mh' := dadd mh c) in *. set (mv' := val64 mh') in *.
  assert (EM : Rabs (mv' - m') <= e + (K + 1) * drift).
  { assert (X : Rabs ((1 - / N) * (mv - m) + / N * (yv - x)) <= e + K * drift) by (apply convex; [lra|exact Em|eapply Rle_trans; [exact Ey|]; unfold drift; lra]).
    assert (E1' : Rabs ((dv - (yv - mv)) * / N) <= / 9007199254740992 * (201 / 100 * Y)). { rewrite Rabs_mult, (Rabs_pos_eq (/ N)) by lra. apply Rle_trans with (Rabs (dv - (yv - mv)) * 1); [apply Rmult_le_compat_l; [apply Rabs_pos|lra]|lra]. }
    replace (mv' - m') with ((1 - / N) * (mv - m) + / N * (yv - x) + (dv - (yv - mv)) * / N + (cv - dv / N) + (mv' - (mv + cv))) by (rewrite <- Em'; unfold Rdiv; ring).
    assert (E2' : Rabs (cv - dv / N) <= / 9007199254740992 * (102 / 100 * Y)) by lra. apply Rabs_le_inv in X. apply Rabs_le_inv in E1'. apply Rabs_le_inv in E2'. apply Rabs_le_inv in E3. apply Rabs_le. unfold drift in *. lra. }
  assert (Bmv' : Rabs mv' <= 101 / 100 * Y) by (eapply Rle_trans; [apply (by_error mv' m' B _ EM Bm')|]; unfold drift in *; lra). assert (Bym' : Rabs (yv - mv') <= 201 / 100 * Y) by (apply Rabs_le_inv in By; apply Rabs_le_inv in Bmv'; apply Rabs_le; lra).
  destruct (dsub_is (widen y) mh' Fy Fm') as [Fd2 Vd2]; [rewrite Vy; fold yv mv'; lra|]. rewrite Vy in Vd2. fold yv mv' in Vd2. assert (E4 : Rabs (val64 (dsub (widen y) mh') - (yv - mv')) <= / 9007199254740992 * (201 / 100 * Y)). { rewrite Vd2. eapply Rle_trans; [unfold Rminus at 2 3; apply sum_error64; [unfold yv; apply F64_F32, number_format|apply generic_format_opp; apply F64_val]|]. rewrite double_value. apply Rmult_le_compat_l; [lra|exact Bym']. }
  set (d2 := dsub (widen y) mh') in *. set (dv2 := val64 d2) in *. clear Vd2. assert (Bdv2 : Rabs dv2 <= 202 / 100 * Y) by (eapply Rle_trans; [apply (by_error dv2 (yv - mv') _ _ E4 Bym')|]; lra).
  assert (G1 : Rabs (dv - (x - m)) <= 2 * e + 12 * / 9007199254740992 * (N * Y)). { replace (dv - (x - m)) with (dv - (yv - mv) + (yv - x) + - (mv - m)) by ring. apply Rabs_le_inv in E1. apply Rabs_le_inv in Ey. apply Rabs_le_inv in Em. apply Rabs_le. unfold drift in *. lra. }
  assert (G2 : Rabs (dv2 - (x - m')) <= 2 * e + 12 * / 9007199254740992 * (N * Y)). { replace (dv2 - (x - m')) with (dv2 - (yv - mv') + (yv - x) + - (mv' - m')) by ring. apply Rabs_le_inv in E4. apply Rabs_le_inv in Ey. apply Rabs_le_inv in EM. apply Rabs_le. unfold drift in *. lra. }
  assert (PG : Rabs (dv * dv2 - (x - m) * (x - m')) <= 402 / 100 * (2 * (Y * e) + 12 * / 9007199254740992 * (N * (Y * Y)))).
  { replace (dv * dv2 - (x - m) * (x - m')) with ((dv - (x - m)) * dv2 + (x - m) * (dv2 - (x - m'))) by ring. eapply Rle_trans; [apply Rabs_triang|]. pose proof (product_bound _ _ _ _ G1 Bdv2) as P1. assert (Bd' : Rabs (x - m) <= 2 * Y) by lra. pose proof (product_bound _ _ _ _ Bd' G2) as P2. clear - P1 P2. eapply Rle_trans; [apply Rplus_le_compat; [exact P1|exact P2]|]. right. field. }
  assert (Bp : Rabs (dv * dv2) <= 41 / 10 * (Y * Y)). { eapply Rle_trans; [apply (product_bound _ _ _ _ Bdv Bdv2)|]. replace (202 / 100 * Y * (202 / 100 * Y)) with (202 / 100 * (202 / 100) * (Y * Y)) by ring. lra. }
  destruct (dmul_is d d2 Fd Fd2) as [Fp Vp]; [fold dv dv2; lra|]. fold dv dv2 in Vp. pose proof (error64 (dv * dv2)) as E5. rewrite <- Vp, double_value in E5. set (p := dmul d d2) in *. set (pv := val64 p) in *. clear Vp. assert (Bpv : Rabs pv <= 42 / 10 * (Y * Y)) by (eapply Rle_trans; [apply (by_error pv _ _ _ E5 Bp)|]; lra).
  set (qv := val64 qh) in *. assert (KS : K * slip <= K * (Y * Y)) by (apply Rmult_le_compat_l; lra). assert (Bqv : Rabs qv <= 5 * (K * (Y * Y))). { eapply Rle_trans; [apply (by_error qv q (K * (4 * (Y * Y))) _ Eq); rewrite Rabs_pos_eq; assumption|]. lra. }
  assert (Bs : Rabs (qv + pv) <= 5 * (N * (Y * Y))) by (eapply Rle_trans; [apply Rabs_triang|]; lra). destruct (dadd_is qh p Fq Fp) as [Fq' Vq']; [fold qv pv; lra|]. fold qv pv in Vq'. assert (E6 : Rabs (val64 (dadd qh p) - (qv + pv)) <= / 9007199254740992 * (5 * (N * (Y * Y)))). { rewrite Vq'. eapply Rle_trans; [apply sum_error64; apply F64_val|]. rewrite double_value. apply Rmult_le_compat_l; [lra|exact Bs]. } clear Vq'.
  unfold follows. rewrite S_INR. cbn [fst snd]. fold d c mh' d2 p K. repeat (split; [assumption|]). assert (YB : B * B <= Y * Y) by (apply Rmult_le_compat; lra). split; [lra|]. set (qv' := val64 (dadd qh p)) in *. rewrite Em' in Eq'. assert (E5' : Rabs (pv - dv * dv2) <= / 9007199254740992 * (42 / 10 * (Y * Y))) by lra.
  replace (qv' - q') with (qv' - (qv + pv) + (pv - dv * dv2) + (dv * dv2 - (x - m) * (x - m')) + (qv - q)) by (rewrite <- Eq'; ring). apply Rabs_le_inv in E6. apply Rabs_le_inv in E5'. apply Rabs_le_inv in PG. apply Rabs_le_inv in Eq. apply Rabs_le. replace ((K + 1) * slip) with (K * slip + slip) by ring. set (ks := K * slip) in *. clearbody ks. unfold slip in *.
  clear - E6 E5' PG Eq NYY Pye PYY. set (a := N * (Y * Y)) in *. set (b := Y * Y) in *. set (f := Y * e) in *. clearbody a b f. lra.
Qed.
Lemma spread_run : forall ys xs k s s', (k + length xs <= n)%nat -> follows k s s' -> Forall2 (fun y x => is_number y /\ Rabs x <= B /\ Rabs (number y - x) <= e) ys xs ->
  follows (k + length xs) (fold_left (float_spread (double_of n)) ys s) (fold_left (spread N) xs s').
Proof.
  intros ys xs k s s' L Fo H. revert k s s' L Fo. induction H as [|y x ys xs (Ny & Bx & Ey) H IH]; intros k s s' L Fo; cbn [length fold_left]; [rewrite Nat.add_0_r; exact Fo|]. cbn [length] in L. rewrite Nat.add_succ_r in L |- *. apply (IH (S k)); [cbn; lia|]. apply spread_step; try assumption. lia.
Qed.
Lemma follows_start : follows 0 (double0, double0) (0, 0).
Proof. unfold follows. cbn [fst snd INR]. change (val64 double0) with 0. rewrite !Rmult_0_l, !Rminus_0_r, !Rabs_R0, Rplus_0_r. repeat split; lra. Qed.

(** ** Mean and deviation *)
Context (sigma : R) (Hs : / 2 ^ 60 <= sigma).
Definition variance_error : R := 10 * (Y * e) + 70 * / 9007199254740992 * (N * (Y * Y)).
Context (Fine : variance_error <= sigma * sigma / 8).
Definition relative : R := variance_error / (sigma * sigma).
Lemma sigma_pos : 0 < sigma. Proof. eapply Rlt_le_trans; [|exact Hs]. apply Rinv_0_lt_compat. apply pow_lt. lra. Qed.
Lemma relative_range : 0 <= relative <= 1 / 8.
Proof.
  pose proof sigma_pos as P. assert (PS : 0 < sigma * sigma) by now apply Rmult_lt_0_compat. assert (PY : 0 <= Y * Y) by apply Rle_0_sqr. assert (0 <= N * (Y * Y)) by (apply Rmult_le_pos; lra). assert (0 <= Y * e) by (apply Rmult_le_pos; [assert (0 < / 2 ^ 60) by (apply Rinv_0_lt_compat; apply pow_lt; lra); lra|lra]). assert (V0 : 0 <= variance_error) by (unfold variance_error; lra).
  unfold relative. split; [apply Rmult_le_pos; [exact V0|left; now apply Rinv_0_lt_compat]|]. apply (Rmult_le_reg_r (sigma * sigma)); [exact PS|]. unfold Rdiv at 1. rewrite Rmult_assoc, Rinv_l by lra. lra.
Qed.
Lemma tiny_below : tiny <= unit_error * / 1000 * sigma /\ tiny64 <= unit_error * / 1000 * sigma /\ tiny <= unit_error * / 1000 * Y /\ tiny * Y <= unit_error * / 1000 * Y.
Proof.
  destruct tiny64_below as [T64 _]. assert (P : 0 < / 2 ^ 60) by (apply Rinv_0_lt_compat; apply pow_lt; lra). assert (T : tiny <= unit_error * / 1024 * / 2 ^ 60). { rewrite tiny_value, unit_value. replace (2 ^ 150) with (2 ^ 24 * (2 ^ 10 * (2 ^ 60 * 2 ^ 56))) by (rewrite <- !pow_add; reflexivity). replace (2 ^ 24) with 16777216 by (rewrite pow_IZR; reflexivity). replace (2 ^ 10) with 1024 by lra. rewrite !Rinv_mult. assert (/ 2 ^ 56 <= 1) by (rewrite <- Rinv_1; apply Rinv_le_contravar; [lra|apply pow_R1_Rle; lra]).
    assert (/ 2 ^ 60 * / 2 ^ 56 <= / 2 ^ 60 * 1) by (apply Rmult_le_compat_l; lra). lra. }
  assert (T' : tiny64 <= / 9007199254740992 * / 1000 * / 2 ^ 60 \/ tiny64 <= tiny) by (right; rewrite tiny_value; unfold tiny64; replace (2 ^ 150) with (bpow radix2 150) by (rewrite <- IZR_Zpower by lia; rewrite pow_IZR; reflexivity); rewrite <- bpow_opp; apply bpow_le; lia). destruct T' as [T'|T']; [|]; rewrite unit_value in *; pose proof tiny_pos; (split; [lra|]); (split; [lra|]); (split; [lra|]); apply Rmult_le_compat_r; try lra; pose proof tiny_le; lra.
Qed.
Lemma deviation_near : forall mh qh m q, follows n (mh, qh) (m, q) -> sigma * sigma <= q / N ->
  let mean := narrow mh in let variance := ddiv qh (double_of n) in let dev := narrow (dsqrt variance) in
  deq variance double0 = false /\ is_number mean /\ Rabs (number mean - m) <= e + 12 / 10 * (unit_error * Y) /\
  is_number dev /\ Rabs (number dev - sqrt (q / N)) <= (relative + 2 * unit_error) * sqrt (q / N) /\ sqrt (q / N) <= 2 * Y.
Proof.
  intros mh qh m q (Fm & Fq & Bm & Em & [Pq Bq] & Eq) Hv mean variance dev. cbn [fst snd] in *. destruct tiny64_below as [T1 T2]. destruct tiny_below as (T3 & T4 & T5 & T6). destruct room as (R1 & R2 & PYY). pose proof tiny64_pos as T0. pose proof tiny_pos as T0'. pose proof sigma_pos as Ps. pose proof relative_range as Rr.
  assert (PY : 0 <= Y). { assert (0 < / 2 ^ 60) by (apply Rinv_0_lt_compat; apply pow_lt; lra). lra. } assert (Zn : (Z.of_nat n <= 2 ^ 53)%Z) by (apply le_IZR; rewrite <- INR_IZR_INZ; apply Rle_trans with 1048576; [lra|apply IZR_le; lia]). destruct (double_of_is n Zn) as [Fn Vn].
  assert (NY : N * Y <= 1048576 * Y) by (apply Rmult_le_compat_r; lra). assert (NYY : 2 * (Y * Y) <= N * (Y * Y) <= 1048576 * (Y * Y)) by (split; apply Rmult_le_compat_r; lra). assert (Pye : 0 <= Y * e) by (apply Rmult_le_pos; lra). set (qv := val64 qh) in *. set (mv := val64 mh) in *.
  assert (It : 0 < / N) by (apply Rinv_0_lt_compat; lra). assert (Bv : q / N <= 4 * (Y * Y)) by (apply (Rmult_le_reg_r N); [lra|]; unfold Rdiv; rewrite Rmult_assoc, Rinv_l by lra; lra). set (v := q / N) in *.
  assert (D1 : Rabs (qv / N - v) <= slip). { replace (qv / N - v) with ((qv - q) * / N) by (subst v; field; lra). rewrite Rabs_mult, (Rabs_pos_eq (/ N)) by lra. apply Rle_trans with (N * slip * / N); [apply Rmult_le_compat_r; lra|right; field; lra]. }
  assert (B1 : Rabs (qv / N) <= 5 * (Y * Y)). { eapply Rle_trans; [apply (by_error _ v (4 * (Y * Y)) _ D1)|lra]. rewrite Rabs_pos_eq; [exact Bv|]. assert (0 < sigma * sigma) by now apply Rmult_lt_0_compat. lra. }
  destruct (ddiv_is qh (double_of n) Fq) as [Fv Vv]; [rewrite Vn; lra|rewrite Vn; fold qv; lra|]. fold variance in Fv, Vv. rewrite Vn in Vv. fold qv in Vv. pose proof (error64 (qv / N)) as E1. rewrite <- Vv, double_value in E1. set (vh := val64 variance) in *. clear Vv.
  assert (DV : Rabs (vh - v) <= variance_error). { apply Rabs_le_inv in D1. apply Rabs_le_inv in E1. apply Rabs_le. unfold variance_error, slip in *. set (a := N * (Y * Y)) in *. set (b := Y * Y) in *. set (f := Y * e) in *. lra. }
  assert (PS : 0 < sigma * sigma) by now apply Rmult_lt_0_compat. assert (Pvh : 0 < vh) by (apply Rabs_le_inv in DV; lra).
  split. { destruct (deq variance double0) eqn:Q; [|reflexivity]. apply deq_is in Q; [|exact Fv|reflexivity]. change (val64 double0) with 0 in Q. fold vh in Q. lra. }
  assert (Y60 : 8 * Y <= 2 ^ 127) by (apply Rle_trans with (2 ^ 3 * 2 ^ 60); [replace (2 ^ 3) with 8 by lra; lra|rewrite <- pow_add; apply Rle_pow; [lra|lia]]).
  assert (Bmv : Rabs mv <= 101 / 100 * Y) by (eapply Rle_trans; [apply (by_error mv m B _ Em Bm)|]; unfold drift in *; lra). destruct (narrow_is mh Fm) as [Nm Vm]; [apply in_range; fold mv; lra|]. fold mean in Nm, Vm. split; [exact Nm|]. pose proof (rounded_error mv) as E2. fold mv in Vm. rewrite <- Vm in E2. split.
  { replace (number mean - m) with (number mean - mv + (mv - m)) by ring. assert (E2' : Rabs (number mean - mv) <= unit_error * (102 / 100 * Y)) by (rewrite unit_value in *; lra). apply Rabs_le_inv in E2'. apply Rabs_le_inv in Em. apply Rabs_le. unfold drift in Em. rewrite unit_value in *. lra. }
  set (s := sqrt v). assert (Ss : s * s = v) by (apply sqrt_sqrt; lra). assert (Sl : sigma <= s) by (rewrite <- (sqrt_square sigma) by lra; apply sqrt_le_1; lra). assert (Su : s <= 2 * Y). { rewrite <- (sqrt_square (2 * Y)) by lra. apply sqrt_le_1; try lra; apply Rle_0_sqr. }
  assert (Rs : variance_error <= relative * (s * s)). { assert (Eg : variance_error = relative * (sigma * sigma)) by (unfold relative; field; lra). rewrite Eg. apply Rmult_le_compat_l; [lra|]. rewrite Ss. exact Hv. }
  set (r := sqrt vh). assert (Sr : r * r = vh) by (apply sqrt_sqrt; lra). assert (Pr : 0 <= r) by apply sqrt_pos. assert (D2 : Rabs (r - s) <= relative * s).
  { apply (Rmult_le_reg_r s); [lra|]. apply Rle_trans with (Rabs (r - s) * (r + s)); [apply Rmult_le_compat_l; [apply Rabs_pos|lra]|]. rewrite <- (Rabs_pos_eq (r + s)) at 1 by lra. rewrite <- Rabs_mult. replace ((r - s) * (r + s)) with (vh - v) by (rewrite <- Sr, <- Ss; ring). lra. }
  assert (Gs : relative * s <= 1 / 8 * s) by (apply Rmult_le_compat_r; lra). set (g := relative * s) in *. assert (Rb : r <= 9 / 8 * s) by (apply Rabs_le_inv in D2; lra).
  destruct (dsqrt_is variance Fv ltac:(fold vh; lra)) as [Fr Vr]. fold vh r in Vr. pose proof (error64 r) as E3. rewrite <- Vr, double_value, (Rabs_pos_eq r) in E3 by exact Pr. set (r1 := val64 (dsqrt variance)) in *. assert (B3 : Rabs r1 <= 113 / 100 * s). { apply Rabs_le_inv in E3. apply Rabs_le. rewrite unit_value in *. lra. }
  destruct (narrow_is (dsqrt variance) Fr) as [Nd Vd]; [apply in_range; fold r1; lra|]. fold r1 dev in Nd, Vd. split; [exact Nd|]. pose proof (rounded_error r1) as E4. rewrite <- Vd in E4. split; [|exact Su]. rewrite Rmult_plus_distr_r. fold g. assert (E4' : Rabs (number dev - r1) <= unit_error * (12 / 10 * s)) by (rewrite unit_value in *; lra).
  apply Rabs_le_inv in E4'. apply Rabs_le_inv in E3. apply Rabs_le_inv in D2. apply Rabs_le. rewrite unit_value in *. lra.
Qed.
(** What the layer makes of one element. *)
Definition normalization_error : R := (3 * e + 12 * (unit_error * Y) + 3 * (Y * relative)) / sigma.
Lemma element_near : forall mean dev m s y x, is_number mean -> Rabs m <= B -> Rabs (number mean - m) <= e + 12 / 10 * (unit_error * Y) -> is_number dev -> Rabs (number dev - s) <= (relative + 2 * unit_error) * s -> sigma <= s <= 2 * Y ->
  is_number y -> Rabs x <= B -> Rabs (number y - x) <= e -> is_number (fdiv (fsub y mean) dev) /\ Rabs (number (fdiv (fsub y mean) dev) - (x - m) / s) <= normalization_error.
Proof.
  intros mean dev m s y x Nm Bm Em Nd Ed [Sl Su] Ny Bx Ey. destruct tiny_below as (T3 & T4 & T5 & T6). pose proof tiny_pos as T0. pose proof sigma_pos as Ps. pose proof relative_range as Rr. destruct room as (R1 & R2 & PYY).
  assert (PY : 0 <= Y). { assert (0 < / 2 ^ 60) by (apply Rinv_0_lt_compat; apply pow_lt; lra). lra. } set (yv := number y) in *. set (mv := number mean) in *. set (dv := number dev) in *.
  assert (Y60 : 8 * Y <= 2 ^ 127) by (apply Rle_trans with (2 ^ 3 * 2 ^ 60); [replace (2 ^ 3) with 8 by lra; lra|rewrite <- pow_add; apply Rle_pow; [lra|lia]]).
  assert (A0 : Rabs (yv - mv) <= 21 / 10 * Y). { pose proof (by_error yv x B e Ey Bx) as H1. pose proof (by_error mv m B _ Em Bm) as H2. apply Rabs_le_inv in H1. apply Rabs_le_inv in H2. apply Rabs_le. rewrite unit_value in *. lra. }
  destruct (sub_is y mean Ny Nm) as [Na Va]; [fold yv mv; lra|]. fold yv mv in Va. assert (E1 : Rabs (number (fsub y mean) - (yv - mv)) <= unit_error * (21 / 10 * Y)). { rewrite Va. eapply Rle_trans; [unfold Rminus at 2 3; apply sum_rounded_error; [apply number_format|apply generic_format_opp; apply number_format]|]. apply Rmult_le_compat_l; [rewrite unit_value; lra|exact A0]. } set (a := fsub y mean) in *. set (av := number a) in *. clear Va.
  assert (D1 : Rabs (av - (x - m)) <= 2 * e + 34 / 10 * (unit_error * Y)). { replace (av - (x - m)) with (av - (yv - mv) + (yv - x) + - (mv - m)) by ring. apply Rabs_le_inv in E1. apply Rabs_le_inv in Ey. apply Rabs_le_inv in Em. apply Rabs_le. lra. }
  set (th := (dv - s) / s). assert (Ed' : dv = s * (1 + th)) by (subst th; field; lra). assert (Th : Rabs th <= relative + 2 * unit_error). { unfold th, Rdiv. rewrite Rabs_mult, (Rabs_pos_eq (/ s)) by (left; apply Rinv_0_lt_compat; lra). apply (Rmult_le_reg_r s); [lra|]. rewrite Rmult_assoc, Rinv_l by lra. lra. }
  assert (Th' : 86 / 100 <= 1 + th) by (apply Rabs_le_inv in Th; rewrite unit_value in *; lra). assert (Pd : 0 < dv) by (rewrite Ed'; apply Rmult_lt_0_compat; lra).
  assert (It : 0 < / (1 + th) <= 117 / 100). { split; [apply Rinv_0_lt_compat; lra|]. apply Rle_trans with (/ (86 / 100)); [apply Rinv_le_contravar; lra|lra]. }
  assert (Bx' : Rabs (x - m) <= 2 * Y) by (apply Rabs_le_inv in Bx; apply Rabs_le_inv in Bm; apply Rabs_le; lra). assert (Ba : Rabs av <= 22 / 10 * Y) by (eapply Rle_trans; [apply (by_error av (yv - mv) _ _ E1 A0)|rewrite unit_value; lra]).
  assert (Bq : s * Rabs (av / dv) <= 26 / 10 * Y). { rewrite <- (Rabs_pos_eq s) at 1 by lra. rewrite <- Rabs_mult. replace (s * (av / dv)) with (av * / (1 + th)) by (rewrite Ed'; field; split; lra). rewrite Rabs_mult, (Rabs_pos_eq (/ (1 + th))) by lra. apply Rle_trans with (22 / 10 * Y * (117 / 100)); [apply Rmult_le_compat; try lra; apply Rabs_pos|lra]. }
  destruct (div_is a dev Na ltac:(fold dv; lra)) as [Nq Vq]. { fold av dv. assert (Q : sigma * Rabs (av / dv) <= 3 * Y) by (eapply Rle_trans; [apply Rmult_le_compat_r; [apply Rabs_pos|exact Sl]|lra]). assert (P60 : 0 < 2 ^ 60) by (apply pow_lt; lra). assert (Rabs (av / dv) <= 2 ^ 60 * (3 * Y)). { apply (Rmult_le_reg_l (/ 2 ^ 60)); [now apply Rinv_0_lt_compat|]. rewrite <- Rmult_assoc, Rinv_l, Rmult_1_l by lra. eapply Rle_trans; [apply Rmult_le_compat_r; [apply Rabs_pos|exact Hs]|exact Q]. }
    assert (2 ^ 60 * (3 * Y) <= 2 ^ 60 * (2 ^ 2 * 2 ^ 60)) by (apply Rmult_le_compat_l; [lra|]; replace (2 ^ 2) with 4 by lra; lra). rewrite <- !pow_add in H0. assert (2 ^ (60 + (2 + 60)) <= 2 ^ 127) by (apply Rle_pow; [lra|lia]). lra. }
  split; [exact Nq|]. fold av dv in Vq. pose proof (rounded_error (av / dv)) as E2. rewrite <- Vq in E2. set (o := number (fdiv a dev)) in *.
  assert (G : s * Rabs (o - (x - m) / s) <= 3 * e + 12 * (unit_error * Y) + 3 * (Y * relative)).
  { assert (S1 : s * Rabs (av / dv - (x - m) / s) <= 117 / 100 * (2 * e + 34 / 10 * (unit_error * Y) + 2 * (Y * relative) + 4 * (unit_error * Y))).
    { rewrite <- (Rabs_pos_eq s) at 1 by lra. rewrite <- Rabs_mult. replace (s * (av / dv - (x - m) / s)) with (/ (1 + th) * ((av - (x - m)) + - ((x - m) * th))) by (rewrite Ed'; field; split; lra). rewrite Rabs_mult, (Rabs_pos_eq (/ (1 + th))) by lra. apply Rmult_le_compat; try lra; try apply Rabs_pos. eapply Rle_trans; [apply Rabs_triang|]. rewrite Rabs_Ropp. pose proof (product_bound _ _ _ _ Bx' Th) as H. replace (2 * Y * (relative + 2 * unit_error)) with (2 * (Y * relative) + 4 * (unit_error * Y)) in H by ring. lra. }
    assert (S2 : s * Rabs (o - av / dv) <= unit_error * (27 / 10 * Y)). { apply Rle_trans with (s * (unit_error * Rabs (av / dv) + tiny)); [apply Rmult_le_compat_l; lra|]. replace (s * (unit_error * Rabs (av / dv) + tiny)) with (unit_error * (s * Rabs (av / dv)) + s * tiny) by ring. assert (s * tiny <= 2 * Y * tiny) by (apply Rmult_le_compat_r; lra). rewrite unit_value in *. lra. }
    assert (S3 : s * Rabs (o - (x - m) / s) <= s * Rabs (o - av / dv) + s * Rabs (av / dv - (x - m) / s)). { rewrite <- Rmult_plus_distr_l. apply Rmult_le_compat_l; [lra|]. replace (o - (x - m) / s) with (o - av / dv + (av / dv - (x - m) / s)) by ring. apply Rabs_triang. }
    assert (0 <= Y * relative) by (apply Rmult_le_pos; lra). rewrite unit_value in *. lra. }
  unfold normalization_error. apply (Rmult_le_reg_l sigma); [exact Ps|]. apply Rle_trans with (s * Rabs (o - (x - m) / s)); [apply Rmult_le_compat_r; [apply Rabs_pos|exact Sl]|]. eapply Rle_trans; [exact G|]. right. field. lra.
Qed.
End Step.
