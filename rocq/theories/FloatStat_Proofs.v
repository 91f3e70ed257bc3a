(** Proofs about the statistics of a column of numbers computed in [double]. *)
From Coq Require Import List Arith Bool NArith ZArith Reals Lia Lra.
From Flocq Require Import Core Plus_error IEEE754.BinarySingleNaN IEEE754.Binary IEEE754.Bits.
From Verif Require Import F32_Model F32_Proofs Scaling_Model Reduce_Model FloatNet_Model FloatNet_Spec FloatNet_Proofs FloatNet_Props FloatSoft_Proofs FloatNorm_Proofs FloatOpt_Model FloatOpt_Proofs FloatScale_Model FloatScale_Spec FloatScale_Proofs FloatLoss_Model FloatLoss_Proofs.
Import ListNotations.
Local Open Scope R_scope.

Lemma rnd64_size x n : (-1074 <= n)%Z -> Rabs x <= bpow radix2 n -> Rabs (rnd64 x) <= bpow radix2 n.
Proof. intros Hn H. apply abs_round_le_generic; [typeclasses eauto|typeclasses eauto|now apply F64_bpow|exact H]. Qed.
Lemma rnd64_0 : rnd64 0 = 0.
Proof. apply rnd64_id. apply generic_format_0. Qed.
Lemma bpow_pow n : bpow radix2 (Z.of_nat n) = 2 ^ n.
Proof. induction n as [|n IH]; [reflexivity|]. cbn [pow]. rewrite <- IH. replace (Z.of_nat (S n)) with (1 + Z.of_nat n)%Z by lia. rewrite bpow_plus. reflexivity. Qed.

Section Column.
(** All numbers of the column are from [lo] to [hi]. *)
Context (lo hi : R) (Bl : - 2 ^ 120 <= lo) (Bh : hi <= 2 ^ 120) (Apart : / 2 ^ 149 <= hi - lo).
Let width := hi - lo.
Definition room : R := width * width * (1 + / 4194304).
Lemma width_range : / 2 ^ 149 <= width <= 2 ^ 121.
Proof. unfold width. assert (2 ^ 121 = 2 * 2 ^ 120) by reflexivity. lra. Qed.
Lemma square_range : 0 < width * width /\ tiny64 <= double_error * (width * width) /\ width * width <= 2 ^ 242.
Proof.
  pose proof width_range as [W1 W2]. assert (P : 0 < / 2 ^ 149) by (apply Rinv_0_lt_compat; apply pow_lt; lra). split; [apply Rmult_lt_0_compat; lra|]. split.
  - apply Rle_trans with (double_error * (/ 2 ^ 149 * / 2 ^ 149)); [|apply Rmult_le_compat_l; [rewrite double_value; lra|apply Rmult_le_compat; lra]]. unfold tiny64. replace double_error with (bpow radix2 (-53)) by (rewrite double_value; reflexivity). replace (/ 2 ^ 149) with (bpow radix2 (-149)) by (change (-149)%Z with (Z.opp (Z.of_nat 149)); rewrite bpow_opp, bpow_pow; reflexivity). rewrite <- !bpow_plus. apply bpow_le. lia.
  - replace (2 ^ 242) with (2 ^ 121 * 2 ^ 121) by (rewrite <- pow_add; reflexivity). apply Rmult_le_compat; lra.
Qed.
Definition counted (k : nat) (s : tally) : Prop :=
  finite64 (t_mean s) = true /\ finite64 (t_total s) = true /\ finite64 (t_M2 s) = true /\ val64 (t_total s) = INR k /\
  (k = 0%nat -> val64 (t_mean s) = 0 /\ val64 (t_M2 s) = 0) /\ (k <> 0%nat -> lo <= val64 (t_mean s) <= hi /\ 0 <= val64 (t_M2 s) <= (INR k - 1) * room).
Lemma max_big : 2 ^ 120 < max32 /\ 2 ^ 250 <= 2 ^ 500.
Proof. split; [change max32 with (bpow radix2 (Z.of_nat 128)); rewrite bpow_pow; apply Rlt_pow; [lra|lia]|apply Rle_pow; [lra|lia]]. Qed.
Lemma counted_value k s x : (Z.of_nat k < 1048576)%Z -> counted k s -> is_number x -> lo <= number x <= hi -> counted (S k) (tally_value s x).
Proof.
  intros Hk (Fm & Ft & F2 & Vt & Z0 & Zk) Nx Bx. destruct max_big as [MB P5]. pose proof width_range as [W1 W2]. destruct square_range as (Q0 & Q1 & Q2). destruct (widen_is x Nx) as [Fw Vw]. assert (Fx64 : F64 (number x)) by (rewrite <- Vw; apply F64_val).
  destruct (double_of_is 1 ltac:(cbn; lia)) as [F1 V1]. assert (P60 : 2 ^ 60 <= 2 ^ 500) by (apply Rle_pow; [lra|lia]). pose proof (pos_INR k) as PK. assert (Kb : INR k + 1 <= 1048576) by (rewrite <- S_INR, INR_IZR_INZ; apply IZR_le; lia).
  destruct (dadd_is (t_total s) double1 Ft F1) as [Fj Vj]; [rewrite Vt; unfold double1; rewrite V1; cbn [INR]; rewrite Rabs_pos_eq; lra|].
  assert (Vj' : val64 (dadd (t_total s) double1) = INR (S k)). { rewrite Vj, Vt. unfold double1. rewrite V1. change (INR 1) with 1. rewrite <- S_INR. apply rnd64_id. destruct (double_of_is (S k) ltac:(lia)) as [_ Q]. rewrite <- Q. apply F64_val. }
  set (a := t_mean s) in *. set (m := dadd a (ddiv (dsub (widen x) a) (dadd (t_total s) double1))).
  assert (Mean : finite64 m = true /\ (k = 0%nat -> val64 m = number x) /\ (k <> 0%nat -> Rmin (val64 a) (number x) <= val64 m <= Rmax (val64 a) (number x))).
  { assert (Ab : - 2 ^ 120 <= val64 a <= 2 ^ 120) by (destruct (Nat.eq_dec k 0) as [K0|K0]; [destruct (Z0 K0) as [-> _]; pose proof (pow_le 2 120); lra|destruct (Zk K0) as [? _]; lra]).
    destruct (mean_run [x] (a, t_total s) k (if Nat.eq_dec k 0 then number x else Rmin (val64 a) (number x)) (if Nat.eq_dec k 0 then number x else Rmax (val64 a) (number x))) as [G1 G2]; cbn [fst snd length]; try assumption; try lia.
    - intros y [<-|[]]. split; [exact Nx|]. destruct (Nat.eq_dec k 0); [lra|]. pose proof (Rmin_r (val64 a) (number x)). pose proof (Rmax_r (val64 a) (number x)). lra.
    - intros K0. apply (Z0 K0).
    - intros K0. destruct (Nat.eq_dec k 0); [contradiction|]. split; [apply Rmin_l|apply Rmax_l].
    - lra.
    - destruct (Nat.eq_dec k 0); [lra|apply Rmin_glb; lra].
    - destruct (Nat.eq_dec k 0); [lra|apply Rmax_lub; lra].
    - cbn [fold_left fst mean_step] in G1, G2. change (double_of 1) with double1 in *. fold m in G1, G2. split; [exact G1|]. assert (G3 := G2 (or_intror (fun Q => nil_cons (eq_sym Q)))). clear - G3. split; intros K0; destruct (Nat.eq_dec k 0); try contradiction; [apply Rle_antisym; apply G3|exact G3]. }
  destruct Mean as (Fm' & M0 & Mk). unfold tally_value, counted. cbn [t_mean t_total t_M2]. fold a. fold m. split; [exact Fm'|]. split; [exact Fj|].
  assert (Core : finite64 (dadd (t_M2 s) (dmul (dsub (widen x) a) (dsub (widen x) m))) = true /\ (lo <= val64 m <= hi) /\ 0 <= val64 (dadd (t_M2 s) (dmul (dsub (widen x) a) (dsub (widen x) m))) <= INR k * room).
  { destruct (Nat.eq_dec k 0) as [K0|K0].
    - specialize (M0 K0). destruct (Z0 K0) as [A0 B0]. assert (Sx : Rabs (number x) <= 2 ^ 250) by (apply Rabs_le; assert (2 ^ 120 <= 2 ^ 250) by (apply Rle_pow; [lra|lia]); lra).
      destruct (dsub_is (widen x) a Fw Fm) as [Fd Vd]; [rewrite Vw, A0, Rminus_0_r; lra|]. rewrite Vw, A0, Rminus_0_r, (rnd64_id _ Fx64) in Vd. destruct (dsub_is (widen x) m Fw Fm') as [Fe Ve]; [rewrite Vw, M0, Rminus_diag_eq, Rabs_R0 by reflexivity; pose proof (pow_le 2 500); lra|]. rewrite Vw, M0, Rminus_diag_eq, rnd64_0 in Ve by reflexivity.
      destruct (dmul_is _ _ Fd Fe) as [Fp Vp]; [rewrite Ve, Rmult_0_r, Rabs_R0; pose proof (pow_le 2 500); lra|]. rewrite Ve, Rmult_0_r, rnd64_0 in Vp. destruct (dadd_is _ _ F2 Fp) as [Fs Vs]; [rewrite B0, Vp, Rplus_0_r, Rabs_R0; pose proof (pow_le 2 500); lra|]. rewrite B0, Vp, Rplus_0_r, rnd64_0 in Vs.
      split; [exact Fs|]. split; [lra|]. rewrite Vs, K0. cbn [INR]. lra.
    - specialize (Mk K0). destruct (Zk K0) as [Am [B0 B1]]. assert (Mr : lo <= val64 m <= hi) by (pose proof (Rmin_glb (val64 a) (number x) lo); pose proof (Rmax_lub (val64 a) (number x) hi); lra). 
      set (v := number x) in *. assert (K1 : 1 <= INR k) by (apply (le_INR 1); lia).
      assert (Dv : forall b, F64 b -> lo <= b <= hi -> Rabs (v - b) <= width /\ Rabs (rnd64 (v - b)) <= (1 + double_error) * width). { intros b Fb Bb. assert (S1 : Rabs (v - b) <= width) by (unfold width; apply Rabs_le; lra). split; [exact S1|]. pose proof (sum_error64 v (- b) Fx64 (generic_format_opp _ _ _ Fb)) as E. change (v + - b) with (v - b) in E. replace (rnd64 (v - b)) with (rnd64 (v - b) - (v - b) + (v - b)) by ring. eapply Rle_trans; [apply Rabs_triang|]. rewrite double_value in *. lra. }
      destruct (Dv (val64 a) (F64_val a) Am) as [S1 T1]. destruct (Dv (val64 m) (F64_val m) Mr) as [S2 T2]. assert (Wb : width <= 2 ^ 500) by (apply Rle_trans with (2 ^ 121); [lra|apply Rle_pow; [lra|lia]]).
      destruct (dsub_is (widen x) a Fw Fm) as [Fd Vd]; [rewrite Vw; fold v; lra|]. destruct (dsub_is (widen x) m Fw Fm') as [Fe Ve]; [rewrite Vw; fold v; lra|]. rewrite Vw in Vd, Ve. fold v in Vd, Ve. set (d := dsub (widen x) a) in *. set (e := dsub (widen x) m) in *.
      assert (Sign : 0 <= val64 d * val64 e). { rewrite Vd, Ve. destruct (Rle_or_lt (val64 a) v) as [L|L].
        - rewrite Rmin_left, Rmax_right in Mk by lra. apply Rmult_le_pos; (apply Rle_trans with (rnd64 0); [rewrite rnd64_0; lra|apply rnd64_le; lra]).
        - rewrite Rmin_right, Rmax_left in Mk by lra. assert (rnd64 (v - val64 a) <= 0) by (apply Rle_trans with (rnd64 0); [apply rnd64_le; lra|rewrite rnd64_0; lra]). assert (rnd64 (v - val64 m) <= 0) by (apply Rle_trans with (rnd64 0); [apply rnd64_le; lra|rewrite rnd64_0; lra]). apply Rmult_le_0_compat_neg || (replace (rnd64 (v - val64 a) * rnd64 (v - val64 m)) with (- rnd64 (v - val64 a) * - rnd64 (v - val64 m)) by ring; apply Rmult_le_pos; lra). }
      assert (Pr : val64 d * val64 e <= (1 + 3 * double_error) * (width * width)). { rewrite <- (Rabs_pos_eq _ Sign), Rabs_mult, Vd, Ve. apply Rle_trans with ((1 + double_error) * width * ((1 + double_error) * width)); [apply Rmult_le_compat; try apply Rabs_pos; assumption|]. replace ((1 + double_error) * width * ((1 + double_error) * width)) with ((1 + double_error) * (1 + double_error) * (width * width)) by ring. apply Rmult_le_compat_r; [lra|]. rewrite double_value. lra. }
      rewrite double_value in *. set (w := width * width) in *. assert (P243 : 2 ^ 250 = 256 * 2 ^ 242) by (replace 256 with (2 ^ 8) by lra; rewrite <- pow_add; reflexivity).
      destruct (dmul_is d e Fd Fe) as [Fp Vp]; [rewrite (Rabs_pos_eq _ Sign); lra|]. pose proof (error64 (val64 d * val64 e)) as Ep. rewrite <- Vp, (Rabs_pos_eq _ Sign), double_value in Ep. set (p := val64 (dmul d e)) in *. assert (P0 : 0 <= p) by (rewrite Vp; apply Rle_trans with (rnd64 0); [rewrite rnd64_0; lra|apply rnd64_le; exact Sign]).
      apply Rabs_le_inv in Ep. set (z := val64 d * val64 e) in *. assert (Pw : p <= (1 + / 1000000000) * w) by (clearbody w z p; lra).
      assert (Rm : room = w * (1 + / 4194304)) by reflexivity. assert (M2b : val64 (t_M2 s) + p <= INR k * room - / 1000000000 * (8 * w)). { assert (INR k * room = (INR k - 1) * room + room) by ring. rewrite Rm in *. clearbody w z p. lra. }
      assert (Kr : INR k * room <= 1048576 * (2 * w)) by (apply Rmult_le_compat; [lra|rewrite Rm; lra|lra|rewrite Rm; lra]). assert (P21 : 2097152 * 2 ^ 242 <= 2 ^ 500) by (replace 2097152 with (2 ^ 21) by lra; rewrite <- pow_add; apply Rle_pow; [lra|lia]).
      destruct (dadd_is (t_M2 s) (dmul d e) F2 Fp) as [Fs Vs]; [fold p; rewrite Rabs_pos_eq; lra|]. fold p in Vs. pose proof (sum_error64 (val64 (t_M2 s)) p (F64_val _) (F64_val _)) as Es. rewrite <- Vs, double_value, (Rabs_pos_eq (val64 (t_M2 s) + p)) in Es by lra. apply Rabs_le_inv in Es.
      split; [exact Fs|]. split; [exact Mr|]. split; [rewrite Vs; apply Rle_trans with (rnd64 0); [rewrite rnd64_0; lra|apply rnd64_le; lra]|]. set (q := INR k * room) in *. clearbody q w p z. lra. }
  destruct Core as (C1 & C2 & C3). split; [exact C1|]. split; [exact Vj'|]. split; [intros Q; discriminate Q|]. intros _. split; [exact C2|]. rewrite S_INR. replace (INR k + 1 - 1) with (INR k) by ring. exact C3.
Qed.
Lemma counted_values xs : forall k s, (Z.of_nat (k + length xs) <= 1048576)%Z -> counted k s -> (forall x, In x xs -> is_number x /\ lo <= number x <= hi) -> counted (k + length xs) (fold_left tally_value xs s).
Proof.
  induction xs as [|x xs IH]; intros k s Hk C H; [rewrite Nat.add_0_r; exact C|]. cbn [length fold_left] in *. replace (k + S (length xs))%nat with (S k + length xs)%nat in * by lia. destruct (H x (or_introl eq_refl)) as [Nx Bx]. apply IH; [exact Hk|apply counted_value; [lia|assumption|assumption|assumption]|]. intros y Iy. apply H. now right.
Qed.
(** The deviation is computed after each tensor. *)
Definition deviated (s : tally) : Prop := t_deviation s = dsqrt (ddiv (t_M2 s) (t_total s)).
Lemma counted_tensors ts : forall k s, (Z.of_nat (k + length (concat ts)) <= 1048576)%Z -> counted k s -> (forall x, In x (concat ts) -> is_number x /\ lo <= number x <= hi) ->
  counted (k + length (concat ts)) (fold_left tally_tensor ts s) /\ (ts <> [] -> deviated (fold_left tally_tensor ts s)).
Proof.
  induction ts as [|t ts IH]; intros k s Hk C H; [split; [rewrite Nat.add_0_r; exact C|congruence]|]. cbn [concat fold_left] in *. rewrite app_length in *. rewrite Nat.add_assoc in *.
  assert (C1 : counted (k + length t) (tally_tensor s t)). { pose proof (counted_values t k s ltac:(lia) C (fun x Hx => H x (in_or_app _ _ _ (or_introl Hx)))) as G. exact G. }
  destruct (IH (k + length t)%nat (tally_tensor s t) Hk C1 (fun x Hx => H x (in_or_app _ _ _ (or_intror Hx)))) as [I1 I2]. split; [exact I1|]. intros _. destruct ts as [|t' ts]; [reflexivity|]. apply I2. discriminate.
Qed.
(** Mean and deviation of the column. *)
Lemma deviation_is k s : (0 < k)%nat -> (Z.of_nat k <= 1048576)%Z -> counted k s -> deviated s ->
  finite64 (t_deviation s) = true /\ 0 <= val64 (t_deviation s) /\ (1 < val64 (t_deviation s) -> 1 < width) /\ (forall n, (0 <= n <= 240)%Z -> width <= bpow radix2 n -> val64 (t_deviation s) <= bpow radix2 n).
Proof.
  intros K0 Hk (_ & Ft & F2 & Vt & _ & Zk) ->. destruct (Zk ltac:(lia)) as [_ [B0 B1]]. destruct square_range as (Q0 & _ & Q2). destruct max_big as [_ P5].
  assert (K1 : 1 <= INR k) by (apply (le_INR 1); lia). assert (K2 : INR k <= 1048576) by (rewrite INR_IZR_INZ; apply IZR_le; lia). assert (B2 : val64 (t_M2 s) <= INR k * (width * width)). { eapply Rle_trans; [exact B1|]. unfold room. set (w := width * width) in *. assert ((INR k - 1) * (w * (1 + / 4194304)) = INR k * w - w * (1 - (INR k - 1) / 4194304)) by field. assert (0 <= w * (1 - (INR k - 1) / 4194304)) by (apply Rmult_le_pos; lra). lra. }
  assert (Ik : 0 < / INR k) by (apply Rinv_0_lt_compat; lra). assert (D0 : 0 <= val64 (t_M2 s) / INR k) by (apply Rmult_le_pos; lra). assert (D1 : val64 (t_M2 s) / INR k <= width * width). { apply Rmult_le_reg_r with (INR k); [lra|]. unfold Rdiv. rewrite Rmult_assoc, Rinv_l by lra. lra. }
  assert (P2 : 2 ^ 242 <= 2 ^ 500) by (apply Rle_pow; [lra|lia]). destruct (ddiv_is (t_M2 s) (t_total s) F2) as [Fq Vq]; [rewrite Vt; lra|rewrite Vt, Rabs_pos_eq; lra|]. rewrite Vt in Vq. set (q := ddiv (t_M2 s) (t_total s)) in *.
  assert (Q : 0 <= val64 q) by (rewrite Vq; apply Rle_trans with (rnd64 0); [rewrite rnd64_0; lra|apply rnd64_le; lra]). destruct (dsqrt_is q Fq Q) as [Fs Vs]. split; [exact Fs|]. rewrite Vs. split; [apply Rle_trans with (rnd64 0); [rewrite rnd64_0; lra|apply rnd64_le; apply sqrt_pos]|].
  assert (Bound : forall n, (0 <= n <= 240)%Z -> width <= bpow radix2 n -> rnd64 (sqrt (val64 q)) <= bpow radix2 n).
  { intros n Hn Hw. assert (Pn : 0 <= bpow radix2 n) by apply bpow_ge_0. pose proof width_range as [W1 _]. assert (0 < / 2 ^ 149) by (apply Rinv_0_lt_compat; apply pow_lt; lra).
    assert (Q' : val64 q <= bpow radix2 n * bpow radix2 n). { rewrite Vq, <- bpow_plus. apply Rle_trans with (rnd64 (bpow radix2 (n + n))); [apply rnd64_le; rewrite bpow_plus; eapply Rle_trans; [exact D1|]; apply Rmult_le_compat; lra|rewrite rnd64_id; [lra|apply F64_bpow; lia]]. }
    apply Rle_trans with (rnd64 (bpow radix2 n)); [apply rnd64_le; rewrite <- (sqrt_square (bpow radix2 n)) by exact Pn; now apply sqrt_le_1_alt|rewrite rnd64_id; [lra|apply F64_bpow; lia]]. }
  split; [|exact Bound]. intros L. apply Rnot_le_lt. intros W. pose proof (Bound 0%Z ltac:(lia) W) as X. change (bpow radix2 0) with 1 in X. lra.
Qed.
End Column.

(** A column whose numbers are all the same. *)
Definition steady (v : R) (k : nat) (s : tally) : Prop :=
  finite64 (t_mean s) = true /\ finite64 (t_total s) = true /\ finite64 (t_M2 s) = true /\ val64 (t_total s) = INR k /\ val64 (t_M2 s) = 0 /\ (k = 0%nat -> val64 (t_mean s) = 0) /\ (k <> 0%nat -> val64 (t_mean s) = v).
Lemma steady_value v k s x : (Z.of_nat (S k) < 9007199254740992)%Z -> steady v k s -> is_number x -> number x = v -> steady v (S k) (tally_value s x).
Proof.
  intros Hk (Fm & Ft & F2 & Vt & V2 & Z0 & Zk) Nx Ex. destruct (widen_is x Nx) as [Fw Vw]. rewrite Ex in Vw. assert (Fv : F64 v) by (rewrite <- Vw; apply F64_val). assert (Bv : - max32 < v < max32) by (rewrite <- Ex; apply below_max).
  pose proof big_fits as BF. assert (M0 : 0 < max32) by apply bpow_gt_0. destruct (double_of_is 1 ltac:(cbn; lia)) as [F1 V1]. assert (P60 : 2 ^ 60 <= 2 ^ 500) by (apply Rle_pow; [lra|lia]). pose proof (pos_INR k) as PK. assert (Kb : INR k + 1 <= 9007199254740992) by (rewrite <- S_INR, INR_IZR_INZ; apply IZR_le; lia).
  destruct (dadd_is (t_total s) double1 Ft F1) as [Fj Vj]; [rewrite Vt; unfold double1; rewrite V1; cbn [INR]; rewrite Rabs_pos_eq; lra|].
  assert (Vj' : val64 (dadd (t_total s) double1) = INR (S k)). { rewrite Vj, Vt. unfold double1. rewrite V1. change (INR 1) with 1. rewrite <- S_INR. apply rnd64_id. destruct (double_of_is (S k) ltac:(lia)) as [_ Q]. rewrite <- Q. apply F64_val. }
  set (a := t_mean s) in *. set (m := dadd a (ddiv (dsub (widen x) a) (dadd (t_total s) double1))). assert (Ab : val64 a = 0 \/ val64 a = v) by (destruct (Nat.eq_dec k 0) as [K0|K0]; [left; exact (Z0 K0)|right; exact (Zk K0)]).
  assert (Mean : finite64 m = true /\ val64 m = v).
  { destruct (mean_run [x] (a, t_total s) k v v) as [G1 G2]; cbn [fst snd length]; try assumption; try lia; try (clear - Bv; lra).
    - intros y [<-|[]]. rewrite Ex. split; [exact Nx|lra].
    - intros K0. rewrite (Zk K0). lra.
    - destruct Ab as [-> | ->]; lra.
    - cbn [fold_left fst mean_step] in G1, G2. change (double_of 1) with double1 in *. fold m in G1, G2. split; [exact G1|]. assert (G3 := G2 (or_intror (fun Q => nil_cons (eq_sym Q)))). apply Rle_antisym; apply G3. }
  destruct Mean as [Fm' Vm]. unfold tally_value, steady. cbn [t_mean t_total t_M2]. fold a. fold m. split; [exact Fm'|]. split; [exact Fj|].
  assert (P5 : 0 <= 2 ^ 500) by (apply pow_le; lra).
  destruct (dsub_is (widen x) a Fw Fm) as [Fd Vd]; [rewrite Vw; apply Rabs_le; destruct Ab as [-> | ->]; lra|]. destruct (dsub_is (widen x) m Fw Fm') as [Fe Ve]; [rewrite Vw, Vm, Rminus_diag_eq, Rabs_R0 by reflexivity; exact P5|]. rewrite Vw, Vm, Rminus_diag_eq, rnd64_0 in Ve by reflexivity.
  destruct (dmul_is _ _ Fd Fe) as [Fp Vp]; [rewrite Ve, Rmult_0_r, Rabs_R0; exact P5|]. rewrite Ve, Rmult_0_r, rnd64_0 in Vp. destruct (dadd_is _ _ F2 Fp) as [Fs Vs]; [rewrite V2, Vp, Rplus_0_r, Rabs_R0; exact P5|]. rewrite V2, Vp, Rplus_0_r, rnd64_0 in Vs.
  split; [exact Fs|]. split; [exact Vj'|]. split; [exact Vs|]. split; [intros Q; discriminate Q|]. intros _. exact Vm.
Qed.
Lemma steady_values v xs : forall k s, (Z.of_nat (k + length xs) < 9007199254740992)%Z -> steady v k s -> (forall x, In x xs -> is_number x /\ number x = v) -> steady v (k + length xs) (fold_left tally_value xs s).
Proof.
  induction xs as [|x xs IH]; intros k s Hk C H; [rewrite Nat.add_0_r; exact C|]. cbn [length fold_left] in *. replace (k + S (length xs))%nat with (S k + length xs)%nat in * by lia. destruct (H x (or_introl eq_refl)) as [Nx Bx]. apply IH; [exact Hk|apply steady_value; [lia|assumption|assumption|assumption]|]. intros y Iy. apply H. now right.
Qed.
Lemma steady_tensors v ts : forall k s, (Z.of_nat (k + length (concat ts)) < 9007199254740992)%Z -> steady v k s -> (forall x, In x (concat ts) -> is_number x /\ number x = v) ->
  steady v (k + length (concat ts)) (fold_left tally_tensor ts s) /\ (ts <> [] -> deviated (fold_left tally_tensor ts s)).
Proof.
  induction ts as [|t ts IH]; intros k s Hk C H; [split; [rewrite Nat.add_0_r; exact C|congruence]|]. cbn [concat fold_left] in *. rewrite app_length in *. rewrite Nat.add_assoc in *.
  assert (C1 : steady v (k + length t) (tally_tensor s t)). { pose proof (steady_values v t k s ltac:(lia) C (fun x Hx => H x (in_or_app _ _ _ (or_introl Hx)))) as G. exact G. }
  destruct (IH (k + length t)%nat (tally_tensor s t) Hk C1 (fun x Hx => H x (in_or_app _ _ _ (or_intror Hx)))) as [I1 I2]. split; [exact I1|]. intros _. destruct ts as [|t' ts]; [reflexivity|]. apply I2. discriminate.
Qed.
Lemma steady_deviation v k s : (0 < k)%nat -> steady v k s -> deviated s -> finite64 (t_deviation s) = true /\ val64 (t_deviation s) = 0.
Proof.
  intros K0 (_ & Ft & F2 & Vt & V2 & _) ->. assert (K1 : 1 <= INR k) by (apply (le_INR 1); lia). assert (P5 : 0 <= 2 ^ 500) by (apply pow_le; lra). assert (E : 0 / INR k = 0) by (unfold Rdiv; apply Rmult_0_l).
  destruct (ddiv_is (t_M2 s) (t_total s) F2) as [Fq Vq]; [rewrite Vt; lra|rewrite Vt, V2, E, Rabs_R0; exact P5|]. rewrite Vt, V2, E, rnd64_0 in Vq. destruct (dsqrt_is _ Fq) as [Fs Vs]; [rewrite Vq; lra|]. split; [exact Fs|]. rewrite Vs, Vq, sqrt_0. apply rnd64_0.
Qed.
Lemma zero_is (f : F) : is_number f -> number f = 0 -> exists s, f = B754_zero 24 128 s.
Proof. intros N V. destruct f as [s|s|s pl e|s m e b]; try discriminate N; [now exists s|]. exfalso. unfold number in V. cbn in V. unfold F2R in V. cbn in V. apply Rmult_integral in V as [V|V]; [destruct s; cbn in V; apply eq_IZR in V; discriminate|]. pose proof (bpow_gt_0 radix2 e). lra. Qed.
