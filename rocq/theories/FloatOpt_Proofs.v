(** Proofs about the optimizers in [float]. *)
From Coq Require Import List Arith Bool ZArith Reals Lia Lra.
From Flocq Require Import Core Relative Plus_error IEEE754.BinarySingleNaN IEEE754.Binary IEEE754.Bits.
From Verif Require Import F32_Model F32_Proofs Reduce_Model FloatNet_Model FloatNet_Spec FloatNet_Proofs FloatSoft_Proofs FloatAct_Proofs FloatNet_Props FloatOpt_Model FloatOpt_Spec.
From Verif Require Reduce_Spec Optimizer_Props.
Import ListNotations.
Local Open Scope R_scope.

Lemma F32_2n : forall n, F32 (2 ^ n).
Proof. intros n. rewrite pow_IZR. change 2%Z with (radix_val radix2). rewrite IZR_Zpower by lia. apply F32_bpow. lia. Qed.
Lemma in_range : forall x, Rabs x <= 2 ^ 127 -> Rabs (rnd x) < max32.
Proof.
  intros x H. rewrite max_is. apply Rle_lt_trans with (2 ^ 127); [|apply Rlt_pow; [lra|lia]]. apply Rabs_le. apply Rabs_le_inv in H. destruct H as [H1 H2]. split.
  - apply rnd_ge_F; [apply generic_format_opp; apply F32_2n|exact H1].
  - apply rnd_le_F; [apply F32_2n|exact H2].
Qed.
Lemma mul_is : forall x y, is_number x -> is_number y -> Rabs (number x * number y) <= 2 ^ 127 -> is_number (fmul x y) /\ number (fmul x y) = rnd (number x * number y).
Proof. intros x y Nx Ny B. destruct (fmul_correct x y Nx Ny (in_range _ B)) as [V Fi]. split; [exact Fi|exact V]. Qed.
Lemma add_is : forall x y, is_number x -> is_number y -> Rabs (number x + number y) <= 2 ^ 127 -> is_number (fadd x y) /\ number (fadd x y) = rnd (number x + number y).
Proof. intros x y Nx Ny B. destruct (fadd_correct x y Nx Ny (in_range _ B)) as [V Fi]. split; [exact Fi|exact V]. Qed.
Lemma sub_is : forall x y, is_number x -> is_number y -> Rabs (number x - number y) <= 2 ^ 127 -> is_number (fsub x y) /\ number (fsub x y) = rnd (number x - number y).
Proof. intros x y Nx Ny B. destruct (fsub_correct x y Nx Ny (in_range _ B)) as [V Fi]. split; [exact Fi|exact V]. Qed.
Lemma div_is : forall x y, is_number x -> number y <> 0 -> Rabs (number x / number y) <= 2 ^ 127 -> is_number (fdiv x y) /\ number (fdiv x y) = rnd (number x / number y).
Proof. intros x y Nx Ny B. destruct (fdiv_correct x y Nx Ny (in_range _ B)) as [V Fi]. split; [exact Fi|exact V]. Qed.
Lemma sqrt_is : forall x, is_number x -> 0 <= number x -> is_number (fsqrt x) /\ number (fsqrt x) = rnd (sqrt (number x)).
Proof.
  intros x N H. destruct (Bsqrt_correct 24 128 eq_refl eq_refl unop_nan_pl32 mode_NE x) as (V & Fi & _). split; [|exact V]. unfold is_number, fsqrt, b32_sqrt. etransitivity; [exact Fi|]. destruct x as [s|s|s pl e|[|] m e b]; try reflexivity; try discriminate N.
  exfalso. unfold number in H. cbn [B2R] in H. assert (F2R (Float radix2 (Z.neg m) e) < 0) by (apply F2R_lt_0; reflexivity). change (cond_Zopp true (Z.pos m)) with (Z.neg m) in H. lra.
Qed.
Lemma opp_is : forall x, is_number x -> is_number (fopp x) /\ number (fopp x) = - number x.
Proof. intros x N. split; [unfold is_number, fopp, b32_opp; now rewrite is_finite_Bopp|apply B2R_Bopp]. Qed.
Lemma literal_is : forall m e, (Z.abs m < 2 ^ 24)%Z -> (-149 <= e <= 100)%Z -> is_number (literal m e) /\ number (literal m e) = IZR m * bpow radix2 e.
Proof.
  intros m e Hm He. pose proof (binary_normalize_correct 24 128 prec_ok emax_ok mode_NE m e false) as C. cbn [round_mode] in C.
  assert (EqF : F2R (Float radix2 m e) = IZR m * bpow radix2 e) by reflexivity. rewrite EqF in C. change (round radix2 (FLT_exp (3 - 128 - 24) 24) ZnearestE (IZR m * bpow radix2 e)) with (rnd (IZR m * bpow radix2 e)) in C.
  assert (G : F32 (IZR m * bpow radix2 e)) by (rewrite <- EqF; apply generic_format_F2R; intros N; unfold cexp, SpecFloat.fexp, SpecFloat.emin; rewrite mag_F2R by exact N; assert (Q : (mag radix2 (IZR m) <= 24)%Z) by (apply mag_le_bpow; [apply IZR_neq; exact N|rewrite <- abs_IZR; change (bpow radix2 24) with (IZR (2 ^ 24)); now apply IZR_lt]); lia).
  change (round radix2 (SpecFloat.fexp 24 128) ZnearestE (IZR m * bpow radix2 e)) with (rnd (IZR m * bpow radix2 e)) in C. rewrite (rnd_id _ G) in C.
  rewrite Rlt_bool_true in C; [destruct C as (V & Fi & _); split; [exact Fi|exact V]|]. rewrite Rabs_mult, (Rabs_pos_eq (bpow _ _)) by apply bpow_ge_0. rewrite <- abs_IZR.
  apply Rle_lt_trans with (bpow radix2 24 * bpow radix2 100); [apply Rmult_le_compat; [apply IZR_le; lia|apply bpow_ge_0|change (bpow radix2 24) with (IZR (2 ^ 24)); apply IZR_le; lia|apply bpow_le; lia]|]. rewrite <- bpow_plus. apply bpow_lt. lia.
Qed.
Lemma beta1_is : is_number beta1 /\ number beta1 = 15099494 / 16777216.
Proof. destruct (literal_is 15099494 (-24) ltac:(lia) ltac:(lia)) as [N V]. split; [exact N|]. unfold beta1. rewrite V. reflexivity. Qed.
Lemma beta2_is : is_number beta2 /\ number beta2 = 16760439 / 16777216.
Proof. destruct (literal_is 16760439 (-24) ltac:(lia) ltac:(lia)) as [N V]. split; [exact N|]. unfold beta2. rewrite V. reflexivity. Qed.
Lemma epsilon_is : is_number float_epsilon /\ number float_epsilon = 11258999 / 1125899906842624.
Proof. destruct (literal_is 11258999 (-50) ltac:(lia) ltac:(lia)) as [N V]. split; [exact N|]. unfold float_epsilon. rewrite V. reflexivity. Qed.
Lemma F32_24 : forall z, (Z.abs z < 2 ^ 24)%Z -> F32 (IZR z / 16777216).
Proof. intros z H. destruct (literal_is z (-24) H ltac:(lia)) as [_ V]. change (IZR z / 16777216) with (IZR z * bpow radix2 (-24)). rewrite <- V. apply val_format. Qed.
Lemma p127 : 1 <= 2 ^ 127.
Proof. apply pow_R1_Rle. lra. Qed.
Lemma rest1_is : is_number (fsub float1 beta1) /\ number (fsub float1 beta1) = 1677722 / 16777216.
Proof.
  destruct beta1_is as [N V]. destruct float1_is as [N1 V1]. pose proof p127. assert (E : number float1 - number beta1 = 1677722 / 16777216) by (rewrite V, V1; field).
  destruct (sub_is float1 beta1 N1 N) as [Nr Vr]; [rewrite E, Rabs_pos_eq by lra; lra|]. split; [exact Nr|]. rewrite Vr, E. apply rnd_id. apply F32_24. lia.
Qed.
Lemma rest2_is : is_number (fsub float1 beta2) /\ number (fsub float1 beta2) = 16777 / 16777216.
Proof.
  destruct beta2_is as [N V]. destruct float1_is as [N1 V1]. pose proof p127. assert (E : number float1 - number beta2 = 16777 / 16777216) by (rewrite V, V1; field).
  destruct (sub_is float1 beta2 N1 N) as [Nr Vr]; [rewrite E, Rabs_pos_eq by lra; lra|]. split; [exact Nr|]. rewrite Vr, E. apply rnd_id. apply F32_24. lia.
Qed.
Lemma number_format : forall x, F32 (number x).
Proof. intros x. apply val_format. Qed.

(** ** Real numbers *)
Lemma tiny_value : tiny = / 2 ^ 150.
Proof. Transparent tiny. reflexivity. Qed.
Opaque tiny.
Lemma tiny_le : tiny <= / 10 ^ 40.
Proof. rewrite tiny_value. apply Rinv_le; [apply pow_lt; lra|]. rewrite !pow_IZR. apply IZR_le. vm_compute. discriminate. Qed.
Lemma F32_rnd : forall x, F32 (rnd x).
Proof. intros x. apply generic_format_round; auto with typeclass_instances. Qed.
Lemma abs_between : forall x b, Rabs x <= b -> - b <= x <= b.
Proof. intros x b H. now apply Rabs_le_inv. Qed.
Lemma two_products : forall a b, Rabs (rnd (rnd a + rnd b) - (a + b)) <= 3 * unit_error * (Rabs a + Rabs b) + 3 * tiny.
Proof.
  intros a b. pose proof (rounded_error a) as A. pose proof (rounded_error b) as B. pose proof (sum_rounded_error (rnd a) (rnd b) (F32_rnd a) (F32_rnd b)) as C. set (p := rnd a) in *. set (q := rnd b) in *. set (s := rnd (p + q)) in *. clearbody p q s.
  assert (D : Rabs (p + q) <= (Rabs a + unit_error * Rabs a + tiny) + (Rabs b + unit_error * Rabs b + tiny)).
  { eapply Rle_trans; [apply Rabs_triang|]. apply Rplus_le_compat; [replace p with (a + (p - a)) by ring|replace q with (b + (q - b)) by ring]; (eapply Rle_trans; [apply Rabs_triang|]; lra). }
  replace (s - (a + b)) with (s - (p + q) + (p - a) + (q - b)) by ring. eapply Rle_trans; [apply Rabs_triang|]. eapply Rle_trans; [apply Rplus_le_compat_r; apply Rabs_triang|].
  assert (E : unit_error * Rabs (p + q) <= unit_error * ((Rabs a + unit_error * Rabs a + tiny) + (Rabs b + unit_error * Rabs b + tiny))) by (apply Rmult_le_compat_l; [left; apply unit_pos|exact D]).
  pose proof (Rabs_pos a). pose proof (Rabs_pos b). pose proof tiny_pos. rewrite unit_value in *. lra.
Qed.
(** The first moment is small where the second one is. *)
Definition slack : R := 1073741824 * tiny.
Lemma moments_stay : forall m g m' v v' q,
  0 <= v -> m * m <= 56 * v + slack -> Rabs (m' - (15099494 / 16777216 * m + 1677722 / 16777216 * g)) <= 3 * unit_error * (Rabs (15099494 / 16777216 * m) + Rabs (1677722 / 16777216 * g)) + 3 * tiny ->
  0 <= q -> Rabs (q - g * g) <= 2 * unit_error * (g * g) + 2 * tiny ->
  Rabs (v' - (16760439 / 16777216 * v + 16777 / 16777216 * q)) <= 3 * unit_error * (Rabs (16760439 / 16777216 * v) + Rabs (16777 / 16777216 * q)) + 3 * tiny ->
  m' * m' <= 56 * v' + slack.
Proof.
  intros m g m' v v' q Hv I Em Hq Eq Ev. unfold slack in *. pose proof tiny_pos as T. pose proof tiny_le as T'. rewrite unit_value in *.
  rewrite (Rabs_pos_eq (16760439 / 16777216 * v)) in Ev by lra. rewrite (Rabs_pos_eq (16777 / 16777216 * q)) in Ev by lra. rewrite !Rabs_mult, (Rabs_pos_eq (15099494 / 16777216)), (Rabs_pos_eq (1677722 / 16777216)) in Em by lra.
  assert (A : m * m = Rabs m * Rabs m) by (rewrite <- Rabs_mult; symmetry; apply Rabs_pos_eq; apply Rle_0_sqr). assert (B : g * g = Rabs g * Rabs g) by (rewrite <- Rabs_mult; symmetry; apply Rabs_pos_eq; apply Rle_0_sqr). assert (C : m' * m' = Rabs m' * Rabs m') by (rewrite <- Rabs_mult; symmetry; apply Rabs_pos_eq; apply Rle_0_sqr).
  set (x := 15099494 / 16777216 * Rabs m + 1677722 / 16777216 * Rabs g) in *. assert (X : Rabs m' <= (1 + 3 / 16777216) * x + 3 * tiny).
  { replace m' with (m' - (15099494 / 16777216 * m + 1677722 / 16777216 * g) + 15099494 / 16777216 * m + 1677722 / 16777216 * g) by ring. eapply Rle_trans; [apply Rabs_triang|]. eapply Rle_trans; [apply Rplus_le_compat_r; apply Rabs_triang|]. rewrite (Rabs_mult _ m), (Rabs_mult _ g), (Rabs_pos_eq (15099494 / 16777216)), (Rabs_pos_eq (1677722 / 16777216)) by lra. subst x. lra. }
  pose proof (Rabs_pos m) as Pm. pose proof (Rabs_pos g) as Pg. pose proof (Rabs_pos m') as Pm'. rewrite A in I. rewrite B in Eq. rewrite C. clear A B C Em. set (a := Rabs m) in *. set (b := Rabs g) in *. set (c := Rabs m') in *. set (t := tiny) in *. clearbody a b c t.
  apply Rabs_le_inv in Eq. apply Rabs_le_inv in Ev. assert (Px : 0 <= x) by (subst x; lra).
  assert (S1 : c * c <= (1 + 1 / 10000) * (x * x) + 200000 * t).
  { assert (c * c <= ((1 + 3 / 16777216) * x + 3 * t) * ((1 + 3 / 16777216) * x + 3 * t)) by (apply Rmult_le_compat; assumption). pose proof (Rle_0_sqr (x - 60000 * t)) as Q. unfold Rsqr in Q. assert (T2 : t * t <= t * (/ 10 ^ 40)) by (apply Rmult_le_compat_l; lra). nra. }
  assert (S2 : x * x <= 99833 / 100000 * (a * a) + 5303 / 100000 * (b * b)).
  { pose proof (Rle_0_sqr (93 / 400 * (15099494 / 16777216) * a - 1677722 / 16777216 * b)) as Q. unfold Rsqr in Q. subst x. nra. }
  clearbody x. set (aa := a * a) in *. set (bb := b * b) in *. set (xx := x * x) in *. set (cc := c * c) in *. assert (0 <= bb) by (subst bb; apply Rle_0_sqr). clearbody aa bb xx cc. lra.
Qed.
(** What Adam divides by. *)
Notation eps := (11258999 / 1125899906842624).
Lemma F32_eps : F32 eps.
Proof. rewrite <- (proj2 epsilon_is). apply number_format. Qed.
Lemma inverse_near : forall r, 0 <= r <= 2 ^ 64 -> let d := rnd (rnd (rnd r + eps) + eps) in
  0 <= rnd r /\ 0 <= rnd (rnd r + eps) /\ eps <= d /\ Rabs (d - (r + 2 * eps)) <= 4 * unit_error * (r + 2 * eps) /\ 0 <= rnd (1 / d) /\ Rabs (rnd (1 / d) - 1 / (r + 2 * eps)) <= 7 * unit_error * (1 / (r + 2 * eps)).
Proof.
  intros r [H H2] d. assert (Eps : 0 < eps) by lra. assert (Q0 : 0 <= rnd r) by (apply rnd_ge0; exact H). assert (D0 : 0 <= rnd (rnd r + eps)) by (apply rnd_ge0; lra). split; [exact Q0|]. split; [exact D0|].
  assert (De : eps <= d) by (subst d; apply rnd_ge_F; [apply F32_eps|lra]). split; [exact De|].
  pose proof (rounded_error r) as A. pose proof (sum_rounded_error (rnd r) eps (F32_rnd r) F32_eps) as B. pose proof (sum_rounded_error (rnd (rnd r + eps)) eps (F32_rnd _) F32_eps) as C. fold d in C. rewrite (Rabs_pos_eq r) in A by exact H. rewrite (Rabs_pos_eq (rnd r + eps)) in B by lra. rewrite (Rabs_pos_eq (rnd (rnd r + eps) + eps)) in C by lra.
  pose proof (rounded_error (1 / d)) as Z. assert (Pd : 0 < 1 / d) by (unfold Rdiv; rewrite Rmult_1_l; apply Rinv_0_lt_compat; lra). assert (Z0 : 0 <= rnd (1 / d)) by (apply rnd_ge0; lra). rewrite (Rabs_pos_eq (1 / d)) in Z by lra.
  set (q := rnd r) in *. set (e := rnd (q + eps)) in *. set (z := rnd (1 / d)) in *. clearbody z. clearbody d. clearbody e. clearbody q. pose proof tiny_pos as T. pose proof tiny_le as T'. rewrite unit_value in *.
  assert (K : Rabs (d - (r + 2 * eps)) <= 4 * / 16777216 * (r + 2 * eps)). { apply Rabs_le_inv in A. apply Rabs_le_inv in B. apply Rabs_le_inv in C. apply Rabs_le. lra. }
  split; [exact K|]. split; [exact Z0|]. set (D := r + 2 * eps) in *. assert (PD : 2 * eps <= D) by (subst D; lra). assert (UD : D <= 2 ^ 65) by (subst D; lra). clearbody D. apply Rabs_le_inv in K. apply Rabs_le_inv in Z.
  set (k := 1 / d) in *. set (j := 1 / D). assert (Kd : k * d = 1) by (subst k; field; lra). assert (Jd : j * D = 1) by (subst j; field; lra). assert (Pj : 0 < j) by (subst j; unfold Rdiv; rewrite Rmult_1_l; apply Rinv_0_lt_compat; lra). clearbody k j.
  assert (L : k <= (1 + 5 * / 16777216) * j). { assert (j * k * ((1 - 4 * / 16777216) * D) <= j * k * d) by (apply Rmult_le_compat_l; [apply Rmult_le_pos; lra|lra]). replace (j * k * d) with (j * (k * d)) in * by ring. replace (j * k * ((1 - 4 * / 16777216) * D)) with (k * (1 - 4 * / 16777216) * (j * D)) in * by ring. rewrite Kd, Jd in *. lra. }
  assert (L' : (1 - 4 * / 16777216) * j <= k). { assert (j * k * d <= j * k * ((1 + 4 * / 16777216) * D)) by (apply Rmult_le_compat_l; [apply Rmult_le_pos; lra|lra]). replace (j * k * d) with (j * (k * d)) in * by ring. replace (j * k * ((1 + 4 * / 16777216) * D)) with (k * (1 + 4 * / 16777216) * (j * D)) in * by ring. rewrite Kd, Jd in *. lra. }
  assert (Tj : tiny <= / 2 * / 16777216 * j). { assert (j * D <= j * 2 ^ 65) by (apply Rmult_le_compat_l; lra). rewrite Jd in *. lra. }
  apply Rabs_le. lra.
Qed.
(** The step. *)
Lemma step_near : forall l r, 0 <= r <= 2 ^ 64 -> let d := rnd (rnd (rnd r + eps) + eps) in
  Rabs (rnd (rnd l * rnd (1 / d)) - l / (r + 2 * eps)) <= 10 * unit_error * (Rabs l / (r + 2 * eps)) + 134217728 * tiny /\ Rabs (rnd l * rnd (1 / d)) <= 2 * (Rabs l / (r + 2 * eps)) + 134217728 * tiny.
Proof.
  intros l r H d. destruct (inverse_near r H) as (_ & _ & _ & _ & I0 & I). fold d in I0, I. pose proof (rounded_error l) as A. pose proof (rounded_error (rnd l * rnd (1 / d))) as S. set (i := rnd (1 / d)) in *. set (a := rnd l) in *. clearbody a i. clear d.
  assert (PD : 2 * eps <= r + 2 * eps) by lra. replace (l / (r + 2 * eps)) with (l * (1 / (r + 2 * eps))) by (field; lra). replace (Rabs l / (r + 2 * eps)) with (Rabs l * (1 / (r + 2 * eps))) by (field; lra).
  set (j := 1 / (r + 2 * eps)) in *. assert (Pj : 0 < j) by (subst j; unfold Rdiv; rewrite Rmult_1_l; apply Rinv_0_lt_compat; lra). assert (Uj : j <= 50100000). { assert (Jd : j * (r + 2 * eps) = 1) by (subst j; field; lra). assert (j * (2 * eps) <= j * (r + 2 * eps)) by (apply Rmult_le_compat_l; lra). lra. }
  clearbody j. pose proof tiny_pos as T. pose proof (Rabs_pos l) as Pl. rewrite unit_value in *.
  assert (Ij : i <= (1 + 7 * / 16777216) * j) by (apply Rabs_le_inv in I; lra).
  assert (E : Rabs (a * i - l * j) <= 81 / 10 * / 16777216 * (Rabs l * j) + 101 / 100 * (tiny * j)).
  { replace (a * i - l * j) with ((a - l) * i + l * (i - j)) by ring. eapply Rle_trans; [apply Rabs_triang|]. rewrite !Rabs_mult, (Rabs_pos_eq i) by exact I0.
    assert (Rabs (a - l) * i <= (/ 16777216 * Rabs l + tiny) * ((1 + 7 * / 16777216) * j)) by (apply Rmult_le_compat; [apply Rabs_pos|exact I0|exact A|exact Ij]). assert (Rabs l * Rabs (i - j) <= Rabs l * (7 * / 16777216 * j)) by (apply Rmult_le_compat_l; assumption).
    assert (0 <= Rabs l * j) by (apply Rmult_le_pos; lra). assert (0 <= tiny * j) by (apply Rmult_le_pos; lra). replace ((/ 16777216 * Rabs l + tiny) * ((1 + 7 * / 16777216) * j)) with (/ 16777216 * (1 + 7 * / 16777216) * (Rabs l * j) + (1 + 7 * / 16777216) * (tiny * j)) in * by ring. replace (Rabs l * (7 * / 16777216 * j)) with (7 * / 16777216 * (Rabs l * j)) in * by ring. lra. }
  assert (Ss : Rabs (a * i) <= (1 + 81 / 10 * / 16777216) * (Rabs l * j) + 101 / 100 * (tiny * j)).
  { replace (a * i) with (a * i - l * j + l * j) by ring. eapply Rle_trans; [apply Rabs_triang|]. rewrite (Rabs_mult l j), (Rabs_pos_eq j) by lra. lra. }
  assert (Tj : tiny * j <= tiny * 50100000) by (apply Rmult_le_compat_l; lra). assert (0 <= Rabs l * j) by (apply Rmult_le_pos; lra). split; [|lra].
  replace (rnd (a * i) - l * j) with (rnd (a * i) - a * i + (a * i - l * j)) by ring. eapply Rle_trans; [apply Rabs_triang|]. lra.
Qed.

(** ** One change of Adam *)
Definition balanced (c : cell) : Prop :=
  of_size (2 ^ 64) (moment1 c) /\ is_number (moment2 c) /\ 0 <= number (moment2 c) <= 2 ^ 127 /\ number (moment1 c) * number (moment1 c) <= 56 * number (moment2 c) + slack.
Lemma rounded_between : forall x, x - unit_error * Rabs x - tiny <= rnd x <= x + unit_error * Rabs x + tiny.
Proof. intros x. pose proof (rounded_error x) as H. apply Rabs_le_inv in H. lra. Qed.
(** Two products, added. *)
Lemma blend_is : forall a x b y n, is_number a -> is_number x -> is_number b -> is_number y -> 1000001 / 1000000 * (Rabs (number a * number x) + Rabs (number b * number y)) + 1 <= 2 ^ n -> (n <= 127)%nat ->
  is_number (fadd (fmul a x) (fmul b y)) /\ number (fadd (fmul a x) (fmul b y)) = rnd (rnd (number a * number x) + rnd (number b * number y)) /\ Rabs (number (fadd (fmul a x) (fmul b y))) <= 2 ^ n.
Proof.
  intros a x b y n Na Nx Nb Ny B Hn. assert (P : 2 ^ n <= 2 ^ 127) by (apply Rle_pow; [lra|lia]). assert (P1 : 1 <= 2 ^ n) by (apply pow_R1_Rle; lra). pose proof (Rabs_pos (number a * number x)) as A1. pose proof (Rabs_pos (number b * number y)) as A2.
  destruct (mul_is a x Na Nx) as [N1 V1]; [lra|]. destruct (mul_is b y Nb Ny) as [N2 V2]; [lra|]. pose proof (rounded_size (number a * number x)) as R1. pose proof (rounded_size (number b * number y)) as R2. rewrite <- V1 in R1. rewrite <- V2 in R2. pose proof tiny_le as T. rewrite unit_value in *.
  assert (S : Rabs (number (fmul a x) + number (fmul b y)) <= 2 ^ n) by (eapply Rle_trans; [apply Rabs_triang|]; lra).
  destruct (add_is (fmul a x) (fmul b y) N1 N2) as [N3 V3]; [lra|]. split; [exact N3|]. split; [rewrite V3, V1, V2; reflexivity|]. rewrite V3. apply Rabs_le_inv in S. apply Rabs_le. split; [apply rnd_ge_F; [apply generic_format_opp; apply F32_2n|lra]|apply rnd_le_F; [apply F32_2n|lra]].
Qed.
Lemma abs_scaled : forall k x, 0 <= k -> Rabs (k * x) = k * Rabs x.
Proof. intros k x H. rewrite Rabs_mult, Rabs_pos_eq by exact H. reflexivity. Qed.
Lemma order_pos : forall x, is_number x -> 0 <= Reduce_Spec.order x -> 0 <= number x.
Proof. intros x N H. rewrite <- (order_number x N). exact H. Qed.
Section Adam_steps.
Context (powf : F -> F -> F) (Sq : accurate_square powf) (lr : F) (Hlr : is_number lr) (Llr : 0 <= number lr <= 1).
Notation step := (float_adam_step powf lr).
Lemma balanced_step : forall c g, balanced c -> of_size (2 ^ 63) g -> balanced (step c g) /\
  Rabs (number (moment1 (step c g)) - (number beta1 * number (moment1 c) + (1 - number beta1) * number g)) <= 3 * unit_error * (Rabs (number (moment1 c)) + Rabs (number g)) + 3 * tiny /\
  Rabs (number (moment2 (step c g)) - (number beta2 * number (moment2 c) + (1 - number beta2) * (number g * number g))) <= 6 * unit_error * (number (moment2 c) + number g * number g) + 4 * tiny.
Proof.
  intros c g ((Nm & Bm) & Nv & Bv & I) (Ng & Bg). destruct Sq as (S1 & _ & S3). destruct (S1 g Ng Bg) as [Nq Eq]. destruct (S3 g Ng) as [_ Oq]. apply (order_pos _ Nq) in Oq. unfold float_adam_step. cbn [moment1 moment2]. set (q := powf g (of_Z 2)) in *. clearbody q.
  destruct beta1_is as [Nb1 Vb1]. destruct beta2_is as [Nb2 Vb2]. destruct rest1_is as [Nc1 Vc1]. destruct rest2_is as [Nc2 Vc2].
  assert (Gg : number g * number g <= 2 ^ 63 * 2 ^ 63). { replace (number g * number g) with (Rabs (number g) * Rabs (number g)) by (rewrite <- Rabs_mult; apply Rabs_pos_eq; apply Rle_0_sqr). apply Rmult_le_compat; try apply Rabs_pos; exact Bg. } assert (Gp : 0 <= number g * number g) by apply Rle_0_sqr.
  pose proof tiny_pos as T. pose proof tiny_le as T'. pose proof unit_value as U. assert (Bq : number q <= 2 ^ 126 + 2 ^ 110) by (apply Rabs_le_inv in Eq; rewrite U in Eq; lra).
  destruct (blend_is beta1 (moment1 c) (fsub float1 beta1) g 64 Nb1 Nm Nc1 Ng) as (Nm' & Vm' & Bm'); [rewrite Vb1, Vc1, !abs_scaled by lra; lra|lia|].
  destruct (blend_is beta2 (moment2 c) (fsub float1 beta2) q 127 Nb2 Nv Nc2 Nq) as (Nv' & Vv' & Bv'); [rewrite Vb2, Vc2, !abs_scaled, !Rabs_pos_eq by lra; lra|lia|].
  set (m' := fadd (fmul beta1 (moment1 c)) (fmul (fsub float1 beta1) g)) in *. set (v' := fadd (fmul beta2 (moment2 c)) (fmul (fsub float1 beta2) q)) in *. clearbody m' v'.
  pose proof (two_products (number beta1 * number (moment1 c)) (number (fsub float1 beta1) * number g)) as Em. rewrite <- Vm' in Em. pose proof (two_products (number beta2 * number (moment2 c)) (number (fsub float1 beta2) * number q)) as Ev. rewrite <- Vv' in Ev. rewrite Vb1, Vc1 in Em. rewrite Vb2, Vc2 in Ev, Vv'.
  assert (Pv' : 0 <= number v'). { rewrite Vv'. apply rnd_ge0. apply Rplus_le_le_0_compat; apply rnd_ge0; lra. }
  split; [|split].
  - unfold balanced. cbn [moment1 moment2]. split; [split; assumption|]. split; [exact Nv'|]. split; [split; [exact Pv'|rewrite Rabs_pos_eq in Bv' by exact Pv'; exact Bv']|]. exact (moments_stay _ _ _ _ _ _ (proj1 Bv) I Em Oq Eq Ev).
  - rewrite Vb1. replace (1 - 15099494 / 16777216) with (1677722 / 16777216) by field. eapply Rle_trans; [exact Em|]. rewrite !abs_scaled by lra. pose proof (Rabs_pos (number (moment1 c))). pose proof (Rabs_pos (number g)). rewrite U. lra.
  - rewrite Vb2. replace (1 - 16760439 / 16777216) with (16777 / 16777216) by field. rewrite !abs_scaled, (Rabs_pos_eq (number (moment2 c))), (Rabs_pos_eq (number q)) in Ev by lra. rewrite U in *. apply Rabs_le_inv in Ev. apply Rabs_le_inv in Eq. apply Rabs_le. lra.
Qed.
Lemma stays_below : forall w s, F32 w -> Rabs w <= 2 ^ 60 -> Rabs s <= 8 -> Rabs (rnd (w + s)) <= 2 ^ 60.
Proof.
  assert (G : forall w s, w <= 2 ^ 60 -> s <= 8 -> rnd (w + s) <= 2 ^ 60).
  { intros w s Hw Hs. assert (E : 2 ^ 60 = bpow radix2 60) by (rewrite pow_IZR; reflexivity). apply round_N_le_midp; auto with typeclass_instances; [apply F32_2n|]. rewrite succ_eq_pos by (apply pow_le; lra). rewrite E, ulp_bpow, <- E. change (SpecFloat.fexp 24 128 (60 + 1)) with 37%Z. change (bpow radix2 37) with (IZR (2 ^ 37)). change (2 ^ 37)%Z with 137438953472%Z. lra. }
  intros w s Fw Hw Hs. apply Rabs_le_inv in Hw. apply Rabs_le_inv in Hs. apply Rabs_le. split; [|apply G; lra].
  assert (H : rnd (- w + - s) <= 2 ^ 60) by (apply G; lra). replace (- w + - s) with (- (w + s)) in H by ring. rewrite round_NE_opp in H. lra.
Qed.
Definition size_of_step (c : cell) : R := Rabs (number (moment1 c)) / (sqrt (number (moment2 c)) + 2 * number float_epsilon).
Lemma balanced_size : forall c, balanced c -> 0 <= size_of_step c <= 749 / 100.
Proof.
  intros c (_ & _ & [Pv _] & I). unfold size_of_step. rewrite (proj2 epsilon_is). pose proof (sqrt_pos (number (moment2 c))) as P. pose proof (sqrt_sqrt _ Pv) as Q. set (d := sqrt (number (moment2 c))) in *. set (m := number (moment1 c)) in *. rewrite <- Q in I. clearbody d m. unfold slack in I. pose proof tiny_le as T. pose proof tiny_pos as T'.
  assert (PD : 0 < d + 2 * eps) by lra. pose proof (Rabs_pos m) as Pm. split; [apply Rmult_le_pos; [exact Pm|left; now apply Rinv_0_lt_compat]|]. apply (Rmult_le_reg_r (d + 2 * eps)); [exact PD|]. unfold Rdiv at 1. rewrite Rmult_assoc, Rinv_l by lra. rewrite Rmult_1_r.
  apply Rsqr_incr_0_var; [|lra]. rewrite <- Rsqr_abs. unfold Rsqr. eapply Rle_trans; [exact I|]. assert (0 <= d * eps) by (apply Rmult_le_pos; lra). assert (0 <= d * d) by apply Rle_0_sqr. match goal with |- _ <= ?r => replace r with ((749 / 100) * (749 / 100) * (d * d) + (749 / 100) * (749 / 100) * 4 * (d * eps) + (749 / 100) * (749 / 100) * 4 * (eps * eps)) by ring end. lra.
Qed.
(** The parameter: how far it is from where it should be, and from where it was. *)
Lemma parameter_step : forall c g, balanced c -> of_size (2 ^ 63) g -> of_size (2 ^ 60) (parameter c) -> let c' := step c g in
  of_size (2 ^ 60) (parameter c') /\
  Rabs (number (parameter c') - (number (parameter c) - number lr * number (moment1 c') / (sqrt (number (moment2 c')) + 2 * number float_epsilon))) <= unit_error * (Rabs (number (parameter c)) + 83 * number lr) + 2 * (134217728 * tiny).
Proof.
  intros c g Bc Hg (Nw & Bw) c'. pose proof (proj1 (balanced_step c g Bc Hg)) as Bc'. fold c' in Bc'. pose proof (balanced_size c' Bc') as Sz. unfold size_of_step in Sz. destruct Bc' as ((Nm & Bm) & Nv & (Pv & Uv) & _).
  assert (Ew : parameter c' = fadd (parameter c) (fmul (fmul (fopp lr) (moment1 c')) (float_inverse (fadd (fsqrt (moment2 c')) float_epsilon)))) by reflexivity. rewrite Ew. clear Ew. set (m := moment1 c') in *. set (v := moment2 c') in *. clearbody m v. clear c' Bc Hg g. destruct epsilon_is as [Ne Ve]. rewrite Ve in *.
  assert (Hr : 0 <= sqrt (number v) <= 2 ^ 64). { split; [apply sqrt_pos|]. apply Rsqr_incr_0_var; [|apply pow_le; lra]. rewrite Rsqr_sqrt by exact Pv. unfold Rsqr. lra. }
  destruct (inverse_near _ Hr) as (Q0 & D0 & De & Dd & I0 & I). set (j := 1 / (sqrt (number v) + 2 * eps)) in *.
  assert (Pj : 0 < j <= 50100000). { subst j. split; [unfold Rdiv; rewrite Rmult_1_l; apply Rinv_0_lt_compat; lra|]. apply (Rmult_le_reg_r (sqrt (number v) + 2 * eps)); [lra|]. unfold Rdiv. rewrite Rmult_assoc, Rinv_l by lra. lra. }
  destruct (step_near (- number lr * number m) _ Hr) as [Es Us]. set (d := rnd (rnd (rnd (sqrt (number v)) + eps) + eps)) in *.
  destruct (sqrt_is v Nv Pv) as [Nq Vq]. rewrite unit_value in *. pose proof tiny_le as T'. pose proof tiny_pos as T. pose proof (rounded_between (sqrt (number v))) as Rq. rewrite (Rabs_pos_eq (sqrt _)) in Rq by lra. rewrite unit_value in Rq.
  destruct (add_is (fsqrt v) float_epsilon Nq Ne) as [Nd1 Vd1]; [rewrite Vq, Ve, Rabs_pos_eq by lra; lra|]. rewrite Vq, Ve in Vd1.
  assert (Ud1 : rnd (rnd (sqrt (number v)) + eps) <= 2 ^ 66) by (apply rnd_le_F; [apply F32_2n|lra]).
  destruct (add_is (fadd (fsqrt v) float_epsilon) float_epsilon Nd1 Ne) as [Nd2 Vd2]; [rewrite Vd1, Ve, Rabs_pos_eq by lra; lra|]. rewrite Vd1, Ve in Vd2. fold d in Vd2. destruct float1_is as [N1 V1].
  assert (Bd : 0 < 1 / d <= 2 ^ 27). { split; [unfold Rdiv; rewrite Rmult_1_l; apply Rinv_0_lt_compat; lra|]. apply (Rmult_le_reg_r d); [lra|]. unfold Rdiv. rewrite Rmult_assoc, Rinv_l by lra. lra. }
  destruct (div_is float1 (fadd (fadd (fsqrt v) float_epsilon) float_epsilon) N1) as [Ni Vi]; [rewrite Vd2; lra|rewrite V1, Vd2, Rabs_pos_eq by lra; lra|]. rewrite V1, Vd2 in Vi. fold (float_inverse (fadd (fsqrt v) float_epsilon)) in Ni, Vi. set (i := float_inverse (fadd (fsqrt v) float_epsilon)) in *. clearbody i.
  destruct (opp_is lr Hlr) as [No Vo]. assert (Bl : Rabs (- number lr * number m) <= 2 ^ 64). { rewrite Rabs_mult, Rabs_Ropp, (Rabs_pos_eq (number lr)) by lra. pose proof (Rabs_pos (number m)). assert (number lr * Rabs (number m) <= 1 * Rabs (number m)) by (apply Rmult_le_compat_r; lra). lra. }
  destruct (mul_is (fopp lr) m No Nm) as [Na Va]; [rewrite Vo; lra|]. rewrite Vo in Va.
  assert (El : Rabs (- number lr * number m) / (sqrt (number v) + 2 * eps) <= 749 / 100 * number lr).
  { rewrite Rabs_mult, Rabs_Ropp, (Rabs_pos_eq (number lr)) by lra. unfold Rdiv. rewrite Rmult_assoc. rewrite (Rmult_comm (749 * _)). apply Rmult_le_compat_l; [lra|]. apply Sz. }
  set (l := - number lr * number m) in *. assert (Ex : number (parameter c) - number lr * number m / (sqrt (number v) + 2 * eps) = number (parameter c) + l / (sqrt (number v) + 2 * eps)) by (subst l; field; lra). rewrite Ex. clear Ex.
  assert (Al : Rabs (l / (sqrt (number v) + 2 * eps)) = Rabs l / (sqrt (number v) + 2 * eps)) by (unfold Rdiv; rewrite Rabs_mult; f_equal; apply Rabs_pos_eq; left; apply Rinv_0_lt_compat; lra).
  destruct (mul_is (fmul (fopp lr) m) i Na Ni) as [Ns Vs]; [rewrite Va, Vi; lra|]. rewrite Va, Vi in Vs. rewrite <- Vs in Es. set (s := fmul (fmul (fopp lr) m) i) in *. clearbody s. set (ex := l / (sqrt (number v) + 2 * eps)) in *. rewrite <- Al in *. clearbody ex.
  assert (Bs : Rabs (number s) <= (1 + 10 * / 16777216) * Rabs ex + 134217728 * tiny). { replace (number s) with (number s - ex + ex) by ring. eapply Rle_trans; [apply Rabs_triang|]. lra. }
  pose proof (stays_below (number (parameter c)) (number s) (number_format _) Bw ltac:(lra)) as St. destruct (add_is (parameter c) s Nw Ns) as [Nn Vn]; [eapply Rle_trans; [apply Rabs_triang|]; lra|]. split; [split; [exact Nn|rewrite Vn; exact St]|]. rewrite Vn.
  pose proof (sum_rounded_error (number (parameter c)) (number s) (number_format _) (number_format _)) as Er. rewrite unit_value in Er. pose proof (Rabs_triang (number (parameter c)) (number s)) as Tr.
  replace (rnd (number (parameter c) + number s) - (number (parameter c) + ex)) with (rnd (number (parameter c) + number s) - (number (parameter c) + number s) + (number s - ex)) by ring. eapply Rle_trans; [apply Rabs_triang|]. pose proof (Rabs_pos ex). lra.
Qed.
Lemma fresh_balanced : forall w, balanced (fresh_cell w).
Proof.
  intros w. unfold balanced, fresh_cell, of_size. cbn [moment1 moment2]. destruct float0_is as [N0 V0]. rewrite V0, Rabs_R0. pose proof tiny_pos as T. assert (0 < 2 ^ 64) by (apply pow_lt; lra). assert (0 < 2 ^ 127) by (apply pow_lt; lra). unfold slack. repeat split; try exact N0; lra.
Qed.
Lemma adam_run_balanced : forall gs c, balanced c -> of_size (2 ^ 60) (parameter c) -> Forall (of_size (2 ^ 63)) gs -> balanced (float_adam powf lr c gs) /\ of_size (2 ^ 60) (parameter (float_adam powf lr c gs)).
Proof.
  induction gs as [|g gs IH]; intros c Bc Bw Hg; [split; assumption|]. inversion Hg; subst. cbn [float_adam fold_left]. apply IH; [now apply balanced_step|now apply parameter_step|assumption].
Qed.
(** ** A second moment that is infinite *)
Definition stuck (c : cell) : Prop := of_size (2 ^ 127) (moment1 c) /\ moment2 c = plus_infinity.
Lemma infinite_sum : forall x y, ~ is_NaN x -> 0 <= Reduce_Spec.order x -> y = plus_infinity -> fadd x y = plus_infinity.
Proof.
  intros x y N O ->. destruct x as [s|[|]|s pl e|s m e b]; try reflexivity; [exfalso; cbn in O; pose proof max_pos; lra|exfalso; apply N; reflexivity].
Qed.
Lemma infinite_sum' : forall x y, ~ is_NaN y -> 0 <= Reduce_Spec.order y -> x = plus_infinity -> fadd x y = plus_infinity.
Proof.
  intros x y N O ->. destruct y as [s|[|]|s pl e|s m e b]; try reflexivity; [exfalso; cbn in O; pose proof max_pos; lra|exfalso; apply N; reflexivity].
Qed.
Lemma positive_infinity : forall x, is_number x -> 0 < number x -> fmul x plus_infinity = plus_infinity.
Proof.
  intros x N P. destruct x as [s|s|s pl ee|[|] m ee b]; try discriminate N; try reflexivity.
  - exfalso. cbn in P. lra.
  - exfalso. unfold number in P. cbn [B2R] in P. change (cond_Zopp true (Z.pos m)) with (Z.neg m) in P. assert (F2R (Float radix2 (Z.neg m) ee) < 0) by (apply F2R_lt_0; reflexivity). lra.
Qed.
(** A product that is not negative. *)
Lemma positive_product : forall x y, is_number x -> 0 < number x <= 1 -> ~ is_NaN y -> 0 <= Reduce_Spec.order y -> ~ is_NaN (fmul x y) /\ 0 <= Reduce_Spec.order (fmul x y).
Proof.
  intros x y Nx Bx Ny Oy. destruct (infinite_or_number y Ny) as [Hy|[->| ->]].
  - apply (order_pos _ Hy) in Oy. pose proof (val_lt_max y) as My. change (val y) with (number y) in My. rewrite Rabs_pos_eq in My by exact Oy. assert (B : 0 <= number x * number y <= number y) by (split; [apply Rmult_le_pos; lra|]; assert (number x * number y <= 1 * number y) by (apply Rmult_le_compat_r; lra); lra).
    destruct (fmul_correct x y Nx Hy) as [V Fi]; [change (val x) with (number x); change (val y) with (number y); rewrite Rabs_pos_eq by (apply rnd_ge0; lra); apply Rle_lt_trans with (number y); [apply rnd_le_F; [apply number_format|lra]|exact My]|].
    split; [now apply number_not_NaN|]. rewrite (order_number _ Fi). change (0 <= val (fmul x y)). rewrite V. apply rnd_ge0. exact (proj1 B).
  - rewrite positive_infinity by (try assumption; lra). split; [discriminate|]. exact Oy.
  - exfalso. cbn in Oy. pose proof max_pos. lra.
Qed.
Lemma moment1_bounded : forall c g, of_size (2 ^ 127) (moment1 c) -> of_size (2 ^ 126) g -> of_size (2 ^ 127) (moment1 (step c g)).
Proof.
  intros c g (Nm & Bm) (Ng & Bg). destruct beta1_is as [Nb1 Vb1]. destruct rest1_is as [Nc1 Vc1]. destruct (blend_is beta1 (moment1 c) (fsub float1 beta1) g 127 Nb1 Nm Nc1 Ng) as (Nm' & _ & Bm'); [rewrite Vb1, Vc1, !abs_scaled by lra; lra|lia|]. split; assumption.
Qed.
(** Where the second moment becomes infinite, the parameter stays where it is. *)
Lemma zero_step : forall c g, of_size (2 ^ 127) (moment1 c) -> of_size (2 ^ 126) g -> is_number (parameter c) -> moment2 (step c g) = plus_infinity -> is_number (parameter (step c g)) /\ number (parameter (step c g)) = number (parameter c).
Proof.
  intros c g Hm Hg Nw Ev. pose proof (moment1_bounded c g Hm Hg) as (Nm & Bm). unfold step, float_adam_step in *. cbn [moment1 moment2 parameter] in *. rewrite Ev. set (m := fadd (fmul beta1 (moment1 c)) (fmul (fsub float1 beta1) g)) in *. clearbody m. clear Ev Hm Hg.
  change (float_inverse (fadd (fsqrt plus_infinity) float_epsilon)) with (B754_zero 24 128 false). destruct (opp_is lr Hlr) as [No Vo].
  destruct (mul_is (fopp lr) m No Nm) as [Na _]. { rewrite Vo, Rabs_mult, Rabs_Ropp, (Rabs_pos_eq (number lr)) by lra. assert (number lr * Rabs (number m) <= 1 * Rabs (number m)) by (apply Rmult_le_compat_r; [apply Rabs_pos|lra]). lra. }
  set (a := fmul (fopp lr) m) in *. clearbody a. assert (Nz : is_number (fmul a (B754_zero 24 128 false)) /\ number (fmul a (B754_zero 24 128 false)) = 0) by (destruct a as [s|s|s pl e|s mm e b]; try discriminate Na; split; reflexivity). destruct Nz as [Nz Vz]. set (z := fmul a (B754_zero 24 128 false)) in *. clearbody z.
  pose proof (val_lt_max (parameter c)) as Mw. change (val (parameter c)) with (number (parameter c)) in Mw.
  assert (E : rnd (number (parameter c) + number z) = number (parameter c)) by (rewrite Vz, Rplus_0_r; apply rnd_id; apply number_format).
  destruct (fadd_correct (parameter c) z Nw Nz) as [V Fi]; [change (val (parameter c)) with (number (parameter c)); change (val z) with (number z); rewrite E; exact Mw|]. split; [exact Fi|]. exact (eq_trans V E).
Qed.
Lemma rest_between : 0 < number (fsub float1 beta2) <= 1.
Proof. rewrite (proj2 rest2_is). lra. Qed.
Lemma beta2_between : 0 < number beta2 <= 1.
Proof. rewrite (proj2 beta2_is). lra. Qed.
Lemma becomes_stuck : forall c g, balanced c -> of_size (2 ^ 126) g -> 2 ^ 64 <= Rabs (number g) -> stuck (step c g).
Proof.
  intros c g ((Nm & Bm) & Nv & Bv & _) Hg Big. split; [apply moment1_bounded; [split; [exact Nm|lra]|exact Hg]|]. destruct Hg as [Ng _]. destruct Sq as (_ & S2 & _). unfold float_adam_step. cbn [moment2]. rewrite (S2 g Ng Big). rewrite (positive_infinity _ (proj1 rest2_is)) by apply rest_between.
  assert (O : 0 <= Reduce_Spec.order (moment2 c)) by (rewrite (order_number _ Nv); apply Bv). destruct (positive_product beta2 (moment2 c) (proj1 beta2_is) beta2_between (number_not_NaN _ Nv) O) as [A B]. now apply infinite_sum.
Qed.
Lemma stays_stuck : forall c g, stuck c -> of_size (2 ^ 126) g -> stuck (step c g).
Proof.
  intros c g [Hm Ev] Hg. split; [now apply moment1_bounded|]. destruct Hg as [Ng _]. destruct Sq as (_ & _ & S3). destruct (S3 g Ng) as [Nq Oq]. unfold float_adam_step. cbn [moment2]. rewrite Ev. rewrite (positive_infinity _ (proj1 beta2_is)) by apply beta2_between.
  destruct (positive_product (fsub float1 beta2) (powf g (of_Z 2)) (proj1 rest2_is) rest_between Nq Oq) as [A B]. now apply infinite_sum'.
Qed.
Lemma stuck_run : forall gs c, stuck c -> is_number (parameter c) -> Forall (of_size (2 ^ 126)) gs -> number (parameter (float_adam powf lr c gs)) = number (parameter c).
Proof.
  induction gs as [|g gs IH]; intros c Sc Nw Hg; [reflexivity|]. inversion Hg as [|? ? Hg1 Hg2]; subst. pose proof (stays_stuck c g Sc Hg1) as Sc'. destruct (zero_step c g (proj1 Sc) Hg1 Nw (proj2 Sc')) as [Nw' Vw']. cbn [float_adam fold_left]. rewrite <- Vw'. now apply IH.
Qed.
End Adam_steps.

(** ** Momentum *)
Lemma momentum_bounded : forall lr G gs c, is_number lr -> 0 <= number lr -> 0 <= G -> number lr * G <= 2 ^ 100 -> Forall (of_size G) gs -> Rabs (number (moment1 c)) <= 101 / 10 * (number lr * G) + 1024 * tiny -> is_number (moment1 c) ->
  is_number (moment1 (float_momentum lr c gs)) /\ Rabs (number (moment1 (float_momentum lr c gs))) <= 101 / 10 * (number lr * G) + 1024 * tiny.
Proof.
  intros lr G gs. induction gs as [|g gs IH]; intros c Nl Pl PG B Hg Bm Nm; [split; assumption|]. inversion Hg as [|? ? (Ng & Bg) Hg2]; subst. cbn [float_momentum fold_left]. destruct beta1_is as [Nb Vb]. pose proof tiny_le as T'. pose proof tiny_pos as T.
  assert (A : Rabs (number lr * number g) <= number lr * G) by (rewrite abs_scaled by exact Pl; apply Rmult_le_compat_l; assumption). assert (Ab : Rabs (number beta1 * number (moment1 c)) <= 15099494 / 16777216 * (101 / 10 * (number lr * G) + 1024 * tiny)) by (rewrite Vb, abs_scaled by lra; apply Rmult_le_compat_l; lra). assert (0 <= number lr * G) by (apply Rmult_le_pos; assumption).
  destruct (blend_is beta1 (moment1 c) lr g 127 Nb Nm Nl Ng) as (N' & V' & _); [lra|lia|]. apply IH; try assumption. unfold float_momentum_step. cbn [moment1]. rewrite V'. pose proof (two_products (number beta1 * number (moment1 c)) (number lr * number g)) as E. rewrite unit_value in E.
  set (x := number beta1 * number (moment1 c)) in *. set (y := number lr * number g) in *. replace (rnd (rnd x + rnd y)) with (rnd (rnd x + rnd y) - (x + y) + x + y) by ring. eapply Rle_trans; [apply Rabs_triang|]. eapply Rle_trans; [apply Rplus_le_compat_r; apply Rabs_triang|]. lra.
Qed.
Lemma momentum_tracks : forall lr w G, is_number lr -> 0 <= number lr -> 0 <= G -> number lr * G <= 2 ^ 100 -> forall gs, Forall (of_size G) gs ->
  Rabs (number (moment1 (float_momentum lr (fresh_cell w) gs)) - number lr * Optimizer_Props.discounted (9 / 10) (map number gs)) <= 700 * unit_error * (number lr * G) + 128 * tiny.
Proof.
  intros lr w G Nl Pl PG B gs. pose proof tiny_le as T'. pose proof tiny_pos as T. assert (PL : 0 <= number lr * G) by (apply Rmult_le_pos; assumption). induction gs as [|g gs IH] using rev_ind; intros Hg.
  - cbn [float_momentum fold_left fresh_cell moment1 map Optimizer_Props.discounted]. rewrite (proj2 float0_is), Rmult_0_r, Rminus_0_r, Rabs_R0, unit_value. lra.
  - apply Forall_app in Hg. destruct Hg as [H1 H2]. inversion H2 as [|? ? (Ng & Bg) _]; subst. specialize (IH H1). destruct (momentum_bounded lr G gs (fresh_cell w) Nl Pl PG B H1) as [Nm Bm]; [cbn [fresh_cell moment1]; rewrite (proj2 float0_is), Rabs_R0; lra|reflexivity|].
    unfold float_momentum. rewrite fold_left_app. cbn [fold_left]. fold (float_momentum lr (fresh_cell w) gs). set (c := float_momentum lr (fresh_cell w) gs) in *. clearbody c. rewrite map_app. cbn [map]. rewrite Optimizer_Props.discounted_snoc. set (D := Optimizer_Props.discounted (9 / 10) (map number gs)) in *. clearbody D.
    destruct beta1_is as [Nb Vb]. assert (A : Rabs (number lr * number g) <= number lr * G) by (rewrite abs_scaled by exact Pl; apply Rmult_le_compat_l; assumption). assert (Ab : Rabs (number beta1 * number (moment1 c)) <= 15099494 / 16777216 * (101 / 10 * (number lr * G) + 1024 * tiny)) by (rewrite Vb, abs_scaled by lra; apply Rmult_le_compat_l; lra).
    destruct (blend_is beta1 (moment1 c) lr g 127 Nb Nm Nl Ng) as (N' & V' & _); [lra|lia|]. unfold float_momentum_step. cbn [moment1]. rewrite V'. pose proof (two_products (number beta1 * number (moment1 c)) (number lr * number g)) as E. rewrite unit_value in *. rewrite Vb in *.
    replace (number lr * (D * (9 / 10) + number g)) with (9 / 10 * (number lr * D) + number lr * number g) by ring. set (x := number (moment1 c)) in *. set (y := number lr * number g) in *. set (L := number lr * G) in *. set (d := number lr * D) in *. set (z := rnd _) in *. clearbody z. clear V' N' Nm Ng Nb Nl. clearbody x y L d. apply Rabs_le_inv in E. apply Rabs_le_inv in IH. apply Rabs_le_inv in Bm. clear B T'. apply Rabs_le.
    lra.
Qed.
Lemma descent_near : forall lr w g, is_number lr -> is_number w -> is_number g -> Rabs (number w) <= 2 ^ 126 -> Rabs (number lr * number g) <= 2 ^ 125 ->
  is_number (float_descent_step lr w g) /\ Rabs (number (float_descent_step lr w g) - (number w - number lr * number g)) <= unit_error * (Rabs (number w) + 3 * Rabs (number lr * number g)) + 2 * tiny.
Proof.
  intros lr w g Nl Nw Ng Bw Bg. unfold float_descent_step. destruct (mul_is lr g Nl Ng) as [N V]; [lra|]. pose proof (rounded_error (number lr * number g)) as E. pose proof (rounded_size (number lr * number g)) as S. rewrite <- V in E, S. pose proof tiny_le as T'. pose proof tiny_pos as T. rewrite unit_value in *. set (y := fmul lr g) in *. clearbody y. set (x := number lr * number g) in *. clearbody x.
  assert (D : Rabs (number w - number y) <= Rabs (number w) + Rabs (number y)) by (unfold Rminus; rewrite <- (Rabs_Ropp (number y)); apply Rabs_triang). destruct (sub_is w y Nw N) as [N2 V2]; [lra|]. split; [exact N2|]. rewrite V2.
  assert (Er : Rabs (rnd (number w - number y) - (number w - number y)) <= / 16777216 * Rabs (number w - number y)). { rewrite <- unit_value. unfold Rminus. apply sum_rounded_error; [apply number_format|apply generic_format_opp; apply number_format]. }
  replace (rnd (number w - number y) - (number w - x)) with (rnd (number w - number y) - (number w - number y) - (number y - x)) by ring. unfold Rminus at 1. eapply Rle_trans; [apply Rabs_triang|]. rewrite Rabs_Ropp. pose proof (Rabs_pos x). lra.
Qed.
(** ** Squaring by multiplication is accurate *)
Lemma product_square : accurate_square (fun x _ => fmul x x).
Proof.
  assert (Sq : forall x : F, 0 <= number x * number x) by (intros x; apply Rle_0_sqr). assert (Aq : forall x : F, number x * number x = Rabs (number x) * Rabs (number x)) by (intros x; rewrite <- Rabs_mult; symmetry; apply Rabs_pos_eq; apply Sq).
  assert (Big : forall x, is_number x -> max32 <= rnd (number x * number x) -> fmul x x = plus_infinity).
  { intros x N H. pose proof (Bmult_correct 24 128 eq_refl eq_refl binop_nan_pl32 mode_NE x x) as C. cbn [round_mode] in C. change (val x) with (number x) in C. rewrite Rlt_bool_false in C by (rewrite Rabs_pos_eq by (apply rnd_ge0; apply Sq); exact H). change (B2FF 24 128 (fmul x x) = binary_overflow 24 128 mode_NE (xorb (Bsign 24 128 x) (Bsign 24 128 x))) in C. rewrite xorb_nilpotent in C.
    destruct (fmul x x) as [s|s|s pl e|s m e b]; cbn in C; try discriminate C. injection C as ->. reflexivity. }
  split; [|split].
  - intros x N B. assert (G : number x * number x <= 2 ^ 63 * 2 ^ 63) by (rewrite Aq; apply Rmult_le_compat; try apply Rabs_pos; exact B). destruct (mul_is x x N N) as [Ns Vs]; [rewrite Rabs_pos_eq by apply Sq; lra|]. split; [exact Ns|]. rewrite Vs. pose proof (rounded_error (number x * number x)) as E. rewrite (Rabs_pos_eq (number x * number x)) in E by apply Sq. pose proof (Sq x). pose proof tiny_pos. rewrite unit_value in *. lra.
  - intros x N B. apply Big; [exact N|]. rewrite max_is. apply rnd_ge_F; [apply F32_2n|]. rewrite Aq. replace (2 ^ 128) with (2 ^ 64 * 2 ^ 64) by (rewrite <- pow_add; reflexivity). assert (0 <= 2 ^ 64) by (apply pow_le; lra). apply Rmult_le_compat; assumption.
  - intros x N. destruct (Rlt_or_le (rnd (number x * number x)) max32) as [L|L].
    + destruct (fmul_correct x x N N) as [V Fi]; [change (val x) with (number x); rewrite Rabs_pos_eq by (apply rnd_ge0; apply Sq); exact L|]. split; [now apply number_not_NaN|]. rewrite (order_number _ Fi). change (0 <= val (fmul x x)). rewrite V. apply rnd_ge0. apply Sq.
    + rewrite (Big x N L). split; [discriminate|]. cbn. lra.
Qed.

(** ** The moments are those of exact arithmetic, nearly *)
Section Moments.
Context (powf : F -> F -> F) (Sq : accurate_square powf) (lr : F) (G : R) (HG : 0 <= G <= 2 ^ 63).
Definition mean1 (m g : R) : R := 9 / 10 * m + 1 / 10 * g.
Definition mean2 (v g : R) : R := 999 / 1000 * v + 1 / 1000 * (g * g).
Definition tracks (c : cell) (m v : R) : Prop :=
  balanced c /\ Rabs m <= G /\ 0 <= v <= G * G /\ Rabs (number (moment1 c) - m) <= 75 * unit_error * G + 40 * tiny /\ Rabs (number (moment2 c) - v) <= 14000 * unit_error * (G * G) + 5000 * tiny.
Lemma tracks_step : forall c g m v, tracks c m v -> is_number g -> Rabs (number g) <= G -> tracks (float_adam_step powf lr c g) (mean1 m (number g)) (mean2 v (number g)).
Proof.
  intros c g m v (Bc & Bm & Bv & Em & Ev) Ng Bg. destruct (balanced_step powf Sq lr c g Bc (conj Ng (Rle_trans _ _ _ Bg (proj2 HG)))) as (Bc' & E1 & E2). split; [exact Bc'|]. set (c' := float_adam_step powf lr c g) in *. clearbody c'. destruct Bc as (_ & _ & [Pv _] & _). rewrite (proj2 beta1_is) in E1. rewrite (proj2 beta2_is) in E2. unfold mean1, mean2.
  set (x := number g) in *. assert (Bx : 0 <= x * x <= G * G). { split; [apply Rle_0_sqr|]. replace (x * x) with (Rabs x * Rabs x) by (rewrite <- Rabs_mult; apply Rabs_pos_eq; apply Rle_0_sqr). apply Rmult_le_compat; try apply Rabs_pos; exact Bg. }
  set (xx := x * x) in *. set (GG := G * G) in *. clearbody xx GG. pose proof tiny_pos as T. rewrite unit_value in *. set (a := number (moment1 c)) in *. set (b := number (moment2 c)) in *. set (a' := number (moment1 c')) in *. set (b' := number (moment2 c')) in *. clearbody a b a' b' x. clear Ng.
  assert (Ba : Rabs a <= G + (75 * / 16777216 * G + 40 * tiny)). { replace a with (m + (a - m)) by ring. eapply Rle_trans; [apply Rabs_triang|]. lra. }
  apply Rabs_le_inv in Bm. pose proof Bg as Bg'. apply Rabs_le_inv in Bg'. apply Rabs_le_inv in Em. apply Rabs_le_inv in Ev. apply Rabs_le_inv in E1. apply Rabs_le_inv in E2.
  split; [apply Rabs_le; lra|]. split; [lra|]. split; apply Rabs_le; lra.
Qed.
End Moments.
