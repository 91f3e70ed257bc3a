(** Proofs about the losses in [float]. *)
From Coq Require Import List Arith Bool ZArith Reals Lia Lra.
From Flocq Require Import Core Relative Plus_error Mult_error IEEE754.BinarySingleNaN IEEE754.Binary IEEE754.Bits.
From Verif Require Import Outcome Tensor_Model Tensor_Spec F32_Model F32_Proofs Reduce_Model FloatNet_Model FloatNet_Spec FloatNet_Proofs FloatSoft_Proofs FloatAct_Proofs FloatNet_Props FloatNorm_Proofs FloatOpt_Model FloatOpt_Spec FloatOpt_Proofs FloatScale_Proofs FloatLoss_Model FloatLoss_Spec.
From Verif Require Import FloatRun_Spec.
From Verif Require Reduce_Spec Reduce_Proofs MatMul_Proofs Conv_Proofs.
Import ListNotations.
Local Open Scope R_scope.

(** ** Relative errors *)
Definition off (k x y : R) : Prop := exists e, Rabs e <= k /\ x = y * (1 + e).
Lemma off_weaken k l x y : k <= l -> off k x y -> off l x y.
Proof. intros H (e & B & E). exists e. split; [lra|exact E]. Qed.
Lemma off_trans k l x y z : 0 <= l -> off k x y -> off l y z -> off (k + l + k * l) x z.
Proof.
  intros P (e & B & ->) (h & C & ->). exists (e + h + e * h). split; [|ring]. assert (Rabs (e * h) <= k * l) by (rewrite Rabs_mult; apply Rmult_le_compat; try apply Rabs_pos; assumption).
  eapply Rle_trans; [apply Rabs_triang|]. eapply Rle_trans; [apply Rplus_le_compat_r; apply Rabs_triang|]. lra.
Qed.
Lemma off_mul k l x y x' y' : 0 <= l -> off k x x' -> off l y y' -> off (k + l + k * l) (x * y) (x' * y').
Proof.
  intros P (e & B & ->) (h & C & ->). exists (e + h + e * h). split; [|ring]. assert (Rabs (e * h) <= k * l) by (rewrite Rabs_mult; apply Rmult_le_compat; try apply Rabs_pos; assumption).
  eapply Rle_trans; [apply Rabs_triang|]. eapply Rle_trans; [apply Rplus_le_compat_r; apply Rabs_triang|]. lra.
Qed.
Lemma off_inv k x y : 0 <= k <= / 10 -> off k x y -> off (12 / 10 * k) (/ x) (/ y).
Proof.
  intros K (e & B & ->). apply Rabs_le_inv in B. assert (P : 0 < 1 + e) by lra. exists (/ (1 + e) - 1). split; [|rewrite Rinv_mult; ring].
  assert (E : (/ (1 + e) - 1) = - e * / (1 + e)) by (field; lra). assert (I : / (1 + e) <= 12 / 10) by (apply (Rmult_le_reg_r (1 + e)); [lra|]; rewrite Rinv_l by lra; lra).
  rewrite E, Rabs_mult, Rabs_Ropp, (Rabs_pos_eq (/ (1 + e))) by (left; now apply Rinv_0_lt_compat). rewrite (Rmult_comm (12 / 10)). apply Rmult_le_compat; [apply Rabs_pos|left; now apply Rinv_0_lt_compat|apply Rabs_le; lra|exact I].
Qed.
Lemma off_abs k x y : off k x y -> Rabs (x - y) <= k * Rabs y.
Proof. intros (e & B & ->). replace (y * (1 + e) - y) with (e * y) by ring. rewrite Rabs_mult. apply Rmult_le_compat_r; [apply Rabs_pos|exact B]. Qed.
(** A difference of two [float] numbers never underflows. *)
Lemma off_difference x y : F32 x -> F32 y -> off unit_error (rnd (x - y)) (x - y).
Proof.
  intros Fx Fy. assert (Fo : F32 (- y)) by (apply generic_format_opp; exact Fy). assert (P24 : Prec_gt_0 24) by reflexivity.
  destruct (@FLT_plus_error_N_ex radix2 (-149) 24 P24 (fun z => negb (Z.even z)) x (- y) Fx Fo) as (e & He & E). exists e. split; [|exact E].
  eapply Rle_trans; [exact He|]. unfold u_ro. change (- (24) + 1)%Z with (Z.opp 23). rewrite bpow_opp. change (bpow radix2 23) with 8388608. rewrite unit_value. assert (/ 2 * / 8388608 / (1 + / 2 * / 8388608) = / 16777217) by (field). rewrite H. apply Rinv_le; lra.
Qed.
Lemma off_normal x : 4 * (2 ^ 24 * tiny) <= Rabs x -> off (5 / 4 * unit_error) (rnd x) x.
Proof.
  intros H. pose proof tiny_pos as T. pose proof unit_pos as U. assert (P : 0 < Rabs x) by (assert (0 < 2 ^ 24 * tiny) by (apply Rmult_lt_0_compat; [apply pow_lt; lra|exact T]); lra).
  assert (N : x <> 0) by (intros ->; rewrite Rabs_R0 in P; lra). exists ((rnd x - x) / x). split; [|field; exact N]. unfold Rdiv. rewrite Rabs_mult, Rabs_inv. apply (Rmult_le_reg_r (Rabs x)); [exact P|]. rewrite Rmult_assoc, Rinv_l by lra. rewrite Rmult_1_r.
  eapply Rle_trans; [apply rounded_error|]. assert (tiny <= / 4 * (unit_error * Rabs x)); [|lra]. rewrite unit_value. replace (2 ^ 24) with 16777216 in H by lra. lra.
Qed.

(** ** Derivatives that are differences *)
Lemma zero_sign x y : F32 x -> F32 y -> (0 < rnd (x - y) <-> y < x) /\ (rnd (x - y) < 0 <-> x < y).
Proof.
  intros Fx Fy. split; split; intros H.
  - destruct (Rlt_or_le y x) as [L|L]; [exact L|]. exfalso. assert (rnd (x - y) <= 0) by (rewrite <- rnd_0; apply rnd_le; lra). lra.
  - now apply distinct_floats.
  - destruct (Rlt_or_le x y) as [L|L]; [exact L|]. exfalso. assert (0 <= rnd (x - y)) by (apply rnd_ge0; lra). lra.
  - assert (E : rnd (x - y) = - rnd (y - x)) by (replace (x - y) with (- (y - x)) by ring; apply round_NE_opp). rewrite E. pose proof (distinct_floats y x Fy Fx H). lra.
Qed.
Lemma F32_twice x : F32 x -> F32 (2 * x).
Proof.
  intros H. replace (2 * x) with (x * bpow radix2 1) by (change (bpow radix2 1) with 2; ring). assert (P24 : Prec_gt_0 24) by reflexivity.
  apply (@Mult_error.mult_bpow_pos_exact_FLT radix2 (-149) 24); [exact H|lia].
Qed.
Lemma twice_exact d : is_number d -> Rabs (number d) <= 2 ^ 126 -> is_number (fmul (of_Z 2) d) /\ number (fmul (of_Z 2) d) = 2 * number d.
Proof.
  intros N B. destruct (small_is 2 ltac:(lia)) as [N2 V2]. assert (Pw : 2 * 2 ^ 126 = 2 ^ 127) by (rewrite tech_pow_Rmult; reflexivity).
  destruct (mul_is (of_Z 2) d N2 N) as [A V]; [rewrite V2, Rabs_mult, (Rabs_pos_eq 2) by lra; lra|]. split; [exact A|]. rewrite V, V2. apply rnd_id. apply F32_twice. apply number_format.
Qed.
Lemma difference_size p t : of_size (2 ^ 125) p -> of_size (2 ^ 125) t -> is_number (fsub p t) /\ number (fsub p t) = rnd (number p - number t) /\ Rabs (number (fsub p t)) <= 2 ^ 126.
Proof.
  intros [Np Bp] [Nt Bt]. assert (Pw : 2 * 2 ^ 125 = 2 ^ 126) by (rewrite tech_pow_Rmult; reflexivity). assert (Pw' : 2 * 2 ^ 126 = 2 ^ 127) by (rewrite tech_pow_Rmult; reflexivity). assert (B : Rabs (number p - number t) <= 2 ^ 126) by (unfold Rminus; eapply Rle_trans; [apply Rabs_triang|]; rewrite Rabs_Ropp; lra).
  destruct (sub_is p t Np Nt) as [N V]; [assert (0 < 2 ^ 126) by (apply pow_lt; lra); lra|]. split; [exact N|]. split; [exact V|]. rewrite V. apply Rabs_le_inv in B. apply Rabs_le. split; [apply rnd_ge_F|apply rnd_le_F]; try lra; [apply generic_format_opp|]; apply F32_2n.
Qed.

(** ** The derivative of the binary cross-entropy, passed back through sigmoid *)
Definition guarded (x y : F) : F := fdiv x (if feq y float0 then float_epsilon else y).
Definition bce_slope (t p : F) : F := fmul (of_Z (-1)) (fsub (guarded t p) (guarded (fsub float1 t) (fsub float1 p))).
Definition bce_back (t p : F) : F := fmul (fmul p (fsub float1 p)) (bce_slope t p).
Lemma feq_true x y : is_number x -> is_number y -> (feq x y = true <-> number x = number y).
Proof.
  intros Nx Ny. unfold feq, b32_compare. rewrite (Bcompare_correct 24 128 x y Nx Ny). fold (number x) (number y). destruct (Rcompare_spec (number x) (number y)); split; intros Q; try lra; try discriminate Q; reflexivity.
Qed.
Lemma minus_one d : is_number d -> is_number (fmul (of_Z (-1)) d) /\ number (fmul (of_Z (-1)) d) = - number d.
Proof.
  intros N. destruct (small_is (-1) ltac:(lia)) as [N2 V2]. pose proof (number_bounds d) as B. assert (Fd : F32 (- number d)) by (apply generic_format_opp; apply number_format).
  destruct (fmul_correct (of_Z (-1)) d N2 N) as [V A]; fold (number (of_Z (-1))) (number d) in *; rewrite V2 in *; replace (-1 * number d) with (- number d) in * by ring; rewrite (rnd_id _ Fd) in *; [rewrite Rabs_Ropp; apply Rabs_def1; lra|]. split; [exact A|exact V].
Qed.
Lemma rest_of p : is_number p -> 0 <= number p <= 1 -> is_number (fsub float1 p) /\ number (fsub float1 p) = rnd (1 - number p) /\ 0 <= number (fsub float1 p) <= 1 /\ off unit_error (number (fsub float1 p)) (1 - number p) /\ (number p < 1 -> / 2 ^ 24 <= number (fsub float1 p)).
Proof.
  intros N B. destruct float1_is as [N1 V1]. destruct (sub_is float1 p N1 N) as [A V]; [rewrite V1, Rabs_pos_eq by lra; pose proof p127; lra|]. rewrite V1 in V. split; [exact A|]. split; [exact V|]. rewrite V. split; [split; [apply rnd_ge0; lra|apply rnd_le_F; [apply F32_1|lra]]|]. split; [apply off_difference; [apply F32_1|apply number_format]|].
  intros L.
  assert (Q : number p <= 1 - / 2 ^ 24).
  { assert (E : 1 - / 2 ^ 24 = pred radix2 (SpecFloat.fexp 24 128) 1).
    { rewrite <- (bpow_powerRZ radix2 0) || idtac. change 1 with (bpow radix2 0) at 2. rewrite pred_bpow. change (SpecFloat.fexp 24 128 0) with (-24)%Z. change (bpow radix2 0) with 1. f_equal. change (-24)%Z with (Z.opp 24). rewrite bpow_opp. f_equal. rewrite pow_IZR. reflexivity. }
    rewrite E. apply pred_ge_gt; try typeclasses eauto; [apply number_format|apply F32_1|exact L]. }
  apply rnd_ge_F; [|lra]. replace (/ 2 ^ 24) with (bpow radix2 (-24)); [apply generic_format_bpow; unfold SpecFloat.fexp, SpecFloat.emin; lia|]. change (-24)%Z with (Z.opp 24). rewrite bpow_opp. f_equal. rewrite pow_IZR. reflexivity.
Qed.
Lemma guarded_is x y b : is_number x -> is_number y -> number y <> 0 -> Rabs (number x / number y) <= b -> b <= 2 ^ 127 -> is_number (guarded x y) /\ number (guarded x y) = rnd (number x / number y).
Proof.
  intros Nx Ny Z B L. unfold guarded. assert (E : feq y float0 = false). { destruct (feq y float0) eqn:Q; [|reflexivity]. apply (feq_true y float0 Ny) in Q; [|reflexivity]. exfalso. apply Z. rewrite Q. reflexivity. }
  rewrite E. apply div_is; [exact Nx|exact Z|lra].
Qed.
Lemma back_real T P S Q a b d s r : 0 <= T <= 1 -> 0 < P < 1 -> off unit_error S (1 - T) -> off unit_error Q (1 - P) -> 0 < Q ->
  Rabs (a - T / P) <= unit_error * (T / P) + tiny -> off (5 / 4 * unit_error) b (S / Q) -> off unit_error d (a - b) -> off (5 / 4 * unit_error) s (P * Q) -> 0 <= s <= 1 -> Rabs (r - s * - d) <= unit_error * Rabs (s * - d) + tiny ->
  Rabs (r - (P - T)) <= 8 * unit_error * (T * (1 - P) + (1 - T) * P) + 3 * tiny.
Proof.
  intros HT HP OS OQ Q0 Ea Ob Od Os Hs Er. pose proof tiny_pos as Ty. set (al := T * (1 - P)). set (be := (1 - T) * P).
  assert (A0 : 0 <= al) by (apply Rmult_le_pos; lra). assert (B0 : 0 <= be) by (apply Rmult_le_pos; lra). rewrite unit_value in *. assert (U2 : P - T = be - al) by (unfold be, al; ring).
  assert (O1 : off (34 / 10 * / 16777216 + / 10 * / 16777216) b ((1 - T) / (1 - P))).
  { pose proof (off_inv (/ 16777216) _ _ ltac:(lra) OQ) as OI. pose proof (off_mul (/ 16777216) (12 / 10 * / 16777216) _ _ _ _ ltac:(lra) OS OI) as OM. pose proof (off_trans _ (/ 16777216 + 12 / 10 * / 16777216 + / 16777216 * (12 / 10 * / 16777216)) _ _ _ ltac:(lra) Ob OM) as OT. eapply off_weaken; [|exact OT]. lra. }
  assert (O2 : off (226 / 100 * / 16777216) s (P * (1 - P))).
  { eapply off_weaken; [|eapply off_trans; [|exact Os|apply (off_mul 0 (/ 16777216) P Q P (1 - P)); [lra|exists 0; split; [rewrite Rabs_R0; lra|ring]|exact OQ]]]; lra. }
  assert (O3 : off (577 / 100 * / 16777216) (s * b) be).
  { eapply off_weaken; [|replace be with (P * (1 - P) * ((1 - T) / (1 - P))) by (unfold be; field; lra); apply off_mul; [|exact O2|exact O1]]; lra. }
  assert (O4 : off (226 / 100 * / 16777216) (s * (T / P)) al).
  { destruct O2 as (e & Be & ->). exists e. split; [exact Be|]. unfold al. field. lra. }
  apply off_abs in O3. rewrite (Rabs_pos_eq be B0) in O3. apply off_abs in O4. rewrite (Rabs_pos_eq al A0) in O4.
  assert (E5 : Rabs (s * (a - T / P)) <= / 16777216 * (s * (T / P)) + tiny).
  { rewrite Rabs_mult, (Rabs_pos_eq s) by lra. eapply Rle_trans; [apply Rmult_le_compat_l; [lra|exact Ea]|]. assert (s * tiny <= 1 * tiny) by (apply Rmult_le_compat_r; lra). lra. }
  apply Rabs_le_inv in O3, O4, E5. assert (E6 : s * (a - T / P) = s * a - s * (T / P)) by ring. rewrite E6 in E5. clear E6.
  set (sa := s * a) in *. set (sb := s * b) in *. set (st := s * (T / P)) in *.
  destruct Od as (e & Be & ->). assert (Ed : s * - ((a - b) * (1 + e)) = (sb - sa) * (1 + e)) by (unfold sa, sb; ring). rewrite Ed in Er. clearbody sa sb st al be.
  set (w := sb - sa) in *. assert (W : Rabs w <= 100001 / 100000 * (al + be) + tiny) by (apply Rabs_le; unfold w; split; lra).
  assert (We : Rabs (w * e) <= / 16777216 * Rabs w) by (rewrite Rabs_mult, Rmult_comm; apply Rmult_le_compat_r; [apply Rabs_pos|exact Be]).
  assert (Wt : Rabs (w * (1 + e)) <= 100001 / 100000 * Rabs w). { rewrite Rabs_mult, Rmult_comm. apply Rmult_le_compat_r; [apply Rabs_pos|]. apply Rabs_le_inv in Be. apply Rabs_le. lra. }
  replace (w * (1 + e)) with (w + w * e) in * by ring. set (we := w * e) in *. clearbody we. apply Rabs_le_inv in We, Er.
  apply Rabs_le. unfold w in *. lra.
Qed.
Lemma quotient_le x y b : 0 <= x <= 1 -> 0 < b -> / b <= y -> 0 <= x / y <= b.
Proof.
  intros Hx Hb Hy. pose proof (Rinv_0_lt_compat b Hb) as I. assert (Py : 0 < y) by lra. split; [apply Rmult_le_pos; [lra|left; now apply Rinv_0_lt_compat]|]. unfold Rdiv. apply Rle_trans with (1 * / y); [apply Rmult_le_compat_r; [left; now apply Rinv_0_lt_compat|lra]|]. rewrite Rmult_1_l, <- (Rinv_inv b). apply Rinv_le; assumption.
Qed.
Lemma quotient_normal x y : x = 0 \/ / 2 ^ 24 <= x -> 0 < y <= 1 -> 0 <= x -> off (5 / 4 * unit_error) (rnd (x / y)) (x / y).
Proof.
  intros [->|L] Hy Hx; [unfold Rdiv; rewrite Rmult_0_l, rnd_0; exists 0; split; [rewrite Rabs_R0; pose proof unit_pos; lra|ring]|]. apply off_normal. assert (x <= x / y). { unfold Rdiv. rewrite <- (Rmult_1_r x) at 1. apply Rmult_le_compat_l; [exact Hx|]. rewrite <- Rinv_1. apply Rinv_le; lra. }
  rewrite Rabs_pos_eq by lra. apply Rle_trans with (/ 2 ^ 24); [|lra]. rewrite tiny_value. replace (2 ^ 150) with (2 ^ 24 * (2 ^ 24 * 2 ^ 102)) by (rewrite <- !pow_add; reflexivity). rewrite !Rinv_mult. assert (/ 2 ^ 102 <= / 2 ^ 2) by (apply Rinv_le; [lra|apply Rle_pow; [lra|lia]]). replace (2 ^ 24) with 16777216 by lra. replace (2 ^ 2) with 4 in H0 by lra. lra.
Qed.
Lemma bce_back_near t p : is_number t -> is_number p -> 0 <= number t <= 1 -> / 2 ^ 100 <= number p < 1 -> is_number (bce_back t p) /\
  Rabs (number (bce_back t p) - (number p - number t)) <= 8 * unit_error * (number t * (1 - number p) + (1 - number t) * number p) + 3 * tiny.
Proof.
  intros Nt Np Ht Hp. assert (P100 : 0 < / 2 ^ 100) by (apply Rinv_0_lt_compat; apply pow_lt; lra). assert (p100 : 0 < 2 ^ 100) by (apply pow_lt; lra). assert (p24 : 0 < 2 ^ 24) by (apply pow_lt; lra).
  assert (Hbig : 4 * 2 ^ 100 <= 2 ^ 127) by (replace (4 * 2 ^ 100) with (2 ^ 102) by (change 102%nat with (2 + 100)%nat; rewrite (pow_add 2 2 100); lra); apply Rle_pow; [lra|lia]). assert (H24 : 2 ^ 24 <= 2 ^ 100) by (apply Rle_pow; [lra|lia]).
  destruct (rest_of p Np ltac:(lra)) as (Nq & Vq & Bq & Oq & Lq). specialize (Lq ltac:(lra)). destruct (rest_of t Nt Ht) as (Ns & Vs & Bs & Os & Ls).
  assert (S24 : number (fsub float1 t) = 0 \/ / 2 ^ 24 <= number (fsub float1 t)). { destruct (Rlt_or_le (number t) 1) as [L|L]; [right; now apply Ls|left]. rewrite Vs. replace (1 - number t) with 0 by lra. apply rnd_0. }
  set (Q := number (fsub float1 p)) in *. set (S1 := number (fsub float1 t)) in *. set (T := number t) in *. set (P := number p) in *.
  assert (I24 : 0 < / 2 ^ 24) by now apply Rinv_0_lt_compat.
  pose proof (quotient_le T P (2 ^ 100) Ht p100 ltac:(lra)) as Ba. pose proof (quotient_le S1 Q (2 ^ 24) Bs p24 Lq) as Bb.
  destruct (guarded_is t p (2 ^ 100) Nt Np) as [Na Va]; fold T; fold P; [lra|rewrite Rabs_pos_eq; lra|lra|]. fold T P in Va.
  destruct (guarded_is (fsub float1 t) (fsub float1 p) (2 ^ 24) Ns Nq) as [Nb Vb]; fold S1; fold Q; [lra|rewrite Rabs_pos_eq; lra|lra|]. fold S1 Q in Vb.
  assert (Ra : 0 <= number (guarded t p) <= 2 ^ 100) by (rewrite Va; split; [apply rnd_ge0; lra|apply rnd_le_F; [apply F32_2n|lra]]).
  assert (Rb : 0 <= number (guarded (fsub float1 t) (fsub float1 p)) <= 2 ^ 24) by (rewrite Vb; split; [apply rnd_ge0; lra|apply rnd_le_F; [apply F32_2n|lra]]).
  set (a := guarded t p) in *. set (b := guarded (fsub float1 t) (fsub float1 p)) in *.
  destruct (sub_is a b Na Nb) as [Nd Vd]; [apply Rabs_le; lra|]. assert (Od : off unit_error (number (fsub a b)) (number a - number b)) by (rewrite Vd; apply off_difference; apply number_format).
  assert (Rd : Rabs (number (fsub a b)) <= 2 ^ 100) by (rewrite Vd; apply Rabs_le; split; [apply rnd_ge_F; [apply generic_format_opp; apply F32_2n|lra]|apply rnd_le_F; [apply F32_2n|lra]]).
  destruct (minus_one (fsub a b) Nd) as [Nm Vm].
  assert (PQ : 0 <= P * Q <= 1) by (split; [apply Rmult_le_pos; lra|rewrite <- (Rmult_1_r 1); apply Rmult_le_compat; lra]).
  destruct (mul_is p (fsub float1 p) Np Nq) as [Nps Vps]; fold P; fold Q; [rewrite Rabs_pos_eq by lra; pose proof p127; lra|]. fold P Q in Vps. assert (Rs : 0 <= number (fmul p (fsub float1 p)) <= 1) by (rewrite Vps; split; [apply rnd_ge0; lra|apply rnd_le_F; [apply F32_1|lra]]).
  assert (Ops : off (5 / 4 * unit_error) (number (fmul p (fsub float1 p))) (P * Q)).
  { rewrite Vps. apply off_normal. rewrite Rabs_pos_eq by lra. apply Rle_trans with (/ 2 ^ 100 * / 2 ^ 24); [|apply Rmult_le_compat; lra]. rewrite tiny_value. replace (2 ^ 150) with (2 ^ 2 * (2 ^ 24 * (2 ^ 100 * 2 ^ 24))) by (rewrite <- !pow_add; reflexivity). rewrite !Rinv_mult. right. replace (2 ^ 2) with 4 by lra. set (x := 2 ^ 24) in *. set (y := / 2 ^ 100). field. lra. }
  change (bce_back t p) with (fmul (fmul p (fsub float1 p)) (fmul (of_Z (-1)) (fsub a b))). set (s := fmul p (fsub float1 p)) in *. set (d := fsub a b) in *.
  assert (Sd : Rabs (number s * - number d) <= 2 ^ 100). { rewrite Rabs_mult, Rabs_Ropp, (Rabs_pos_eq (number s)) by lra. rewrite <- (Rmult_1_l (2 ^ 100)). apply Rmult_le_compat; try lra. apply Rabs_pos. }
  destruct (mul_is s (fmul (of_Z (-1)) d) Nps Nm) as [Nr Vr]; [rewrite Vm; lra|]. split; [exact Nr|]. rewrite Vm in Vr.
  apply (back_real T P S1 Q (number a) (number b) (number d) (number s)); try assumption; try lra.
  - rewrite Va. eapply Rle_trans; [apply rounded_error|]. rewrite Rabs_pos_eq by lra. lra.
  - rewrite Vb. apply quotient_normal; [exact S24|lra|lra].
  - rewrite Vr. apply rounded_error.
Qed.
(** A prediction that is exactly 0 or 1. *)
Lemma feq_false x : is_number x -> number x <> 0 -> feq x float0 = false.
Proof. intros N Z. destruct (feq x float0) eqn:Q; [|reflexivity]. apply (feq_true x float0 N) in Q; [|reflexivity]. exfalso. apply Z. rewrite Q. reflexivity. Qed.
Lemma guarded_any x y : is_number x -> is_number y -> 0 <= number x <= 1 -> number y = 0 \/ number y = 1 -> is_number (guarded x y) /\ 0 <= number (guarded x y) <= 2 ^ 27.
Proof.
  intros Nx Ny Hx Hy. assert (G : exists z, guarded x y = fdiv x z /\ is_number z /\ / 2 ^ 27 <= number z <= 1).
  { destruct Hy as [Hy|Hy].
    - exists float_epsilon. unfold guarded. rewrite (proj2 (feq_true y float0 Ny ltac:(reflexivity))) by (rewrite Hy; reflexivity). destruct epsilon_is as [N V]. split; [reflexivity|]. split; [exact N|]. rewrite V. lra.
    - exists y. unfold guarded. rewrite (feq_false y Ny) by lra. split; [reflexivity|]. split; [exact Ny|]. rewrite Hy. lra. }
  destruct G as (z & -> & Nz & Bz). pose proof (quotient_le (number x) (number z) (2 ^ 27) Hx ltac:(lra) ltac:(lra)) as B. destruct (div_is x z Nx) as [N V]; [assert (0 < / 2 ^ 27) by lra; lra|rewrite Rabs_pos_eq by lra; assert (2 ^ 27 <= 2 ^ 127) by (apply Rle_pow; [lra|lia]); lra|].
  split; [exact N|]. rewrite V. split; [apply rnd_ge0; lra|apply rnd_le_F; [apply F32_2n|lra]].
Qed.
Lemma bce_back_stuck t p : is_number t -> is_number p -> 0 <= number t <= 1 -> number p = 0 \/ number p = 1 -> is_number (bce_back t p) /\ number (bce_back t p) = 0.
Proof.
  intros Nt Np Ht Hp. destruct (rest_of p Np ltac:(lra)) as (Nq & Vq & Bq & _). destruct (rest_of t Nt Ht) as (Ns & Vs & Bs & _).
  assert (Hq : number (fsub float1 p) = 0 \/ number (fsub float1 p) = 1). { rewrite Vq. destruct Hp as [->| ->]; [right; rewrite Rminus_0_r; apply rnd_id; apply F32_1|left; replace (1 - 1) with 0 by ring; apply rnd_0]. }
  assert (Z : number p * number (fsub float1 p) = 0). { rewrite Vq. destruct Hp as [->| ->]; [ring|replace (1 - 1) with 0 by ring; rewrite rnd_0; ring]. }
  destruct (guarded_any t p Nt Np Ht Hp) as [Na Ba]. destruct (guarded_any (fsub float1 t) (fsub float1 p) Ns Nq Bs Hq) as [Nb Bb].
  unfold bce_back, bce_slope. set (a := guarded t p) in *. set (b := guarded (fsub float1 t) (fsub float1 p)) in *. assert (P27 : 2 ^ 27 <= 2 ^ 127) by (apply Rle_pow; [lra|lia]).
  destruct (sub_is a b Na Nb) as [Nd _]; [apply Rabs_le; lra|]. destruct (minus_one (fsub a b) Nd) as [Nm _]. destruct (mul_is p (fsub float1 p) Np Nq) as [Nps Vps]; [rewrite Z, Rabs_R0; lra|]. rewrite Z, rnd_0 in Vps.
  destruct (mul_is (fmul p (fsub float1 p)) (fmul (of_Z (-1)) (fsub a b)) Nps Nm) as [Nr Vr]; [rewrite Vps, Rmult_0_l, Rabs_R0; lra|]. split; [exact Nr|]. rewrite Vr, Vps, Rmult_0_l. apply rnd_0.
Qed.

(** ** Logarithms *)
Lemma log_le x y : 0 < x -> x <= y -> ln x <= ln y.
Proof. intros P [L| ->]; [left; now apply ln_increasing|apply Rle_refl]. Qed.
Lemma exp_20 : 150000000 <= exp 20.
Proof.
  assert (E : exp 20 = exp (/ 8) ^ 160). { replace 20 with (INR 160 * / 8) by (rewrite INR_IZR_INZ; cbn; lra). generalize 160%nat. induction n as [|n IH]; [cbn [INR pow]; rewrite Rmult_0_l; apply exp_0|]. rewrite S_INR, Rmult_plus_distr_r, exp_plus, IH, Rmult_1_l. cbn [pow]. ring. }
  rewrite E. assert (L : 9 / 8 <= exp (/ 8)) by (pose proof (exp_ineq1_le (/ 8)); lra). change 160%nat with (16 * 10)%nat. rewrite pow_mult.
  apply Rle_trans with (((9 / 8) ^ 16) ^ 10); [|apply pow_incr; split; [apply pow_le; lra|apply pow_incr; lra]]. apply Rle_trans with ((658 / 100) ^ 10); [lra|]. apply pow_incr. lra.
Qed.
Lemma epsilon_value : number float_epsilon = 11258999 / 1125899906842624.
Proof. apply (proj2 epsilon_is). Qed.
Lemma log_range x : number float_epsilon <= x <= 1 -> - 20 <= ln x <= 0.
Proof.
  rewrite epsilon_value. intros H. split; [|rewrite <- ln_1; apply log_le; lra]. rewrite <- (ln_exp (- 20)). apply log_le; [apply exp_pos|]. replace (-20) with (Ropp 20) by ring. rewrite exp_Ropp. apply Rle_trans with (/ 150000000); [apply Rinv_le; [lra|apply exp_20]|lra].
Qed.
Lemma below_one_is : is_number float_below_one /\ number float_below_one = 1.
Proof.
  destruct float1_is as [N1 V1]. destruct epsilon_is as [Ne Ve]. destruct (sub_is float1 float_epsilon N1 Ne) as [N V]; [rewrite V1, Ve, Rabs_pos_eq by lra; pose proof p127; lra|]. split; [exact N|]. unfold float_below_one. rewrite V, V1, Ve.
  apply Rle_antisym; [apply rnd_le_F; [apply F32_1|lra]|]. destruct (Rle_or_lt 1 (rnd (1 - 11258999 / 1125899906842624))) as [L|L]; [exact L|exfalso].
  assert (Q : rnd (1 - 11258999 / 1125899906842624) <= 1 - / 2 ^ 24).
  { assert (E : 1 - / 2 ^ 24 = pred radix2 (SpecFloat.fexp 24 128) 1).
    { change 1 with (bpow radix2 0) at 2. rewrite pred_bpow. change (SpecFloat.fexp 24 128 0) with (-24)%Z. change (bpow radix2 0) with 1. f_equal. change (-24)%Z with (Z.opp 24). rewrite bpow_opp. f_equal. rewrite pow_IZR. reflexivity. }
    rewrite E. apply pred_ge_gt; try typeclasses eauto; [apply F32_rnd|apply F32_1|exact L]. }
  destruct (round_N_pt radix2 (SpecFloat.fexp 24 128) (fun z => negb (Z.even z)) (1 - 11258999 / 1125899906842624)) as [_ M]. specialize (M 1 F32_1). fold (rnd (1 - 11258999 / 1125899906842624)) in M.
  rewrite (Rabs_pos_eq (1 - _)) in M by lra. set (z := rnd _) in *. rewrite Rabs_left1 in M by lra. lra.
Qed.
Lemma clamp_is v : is_number v -> 0 <= number v <= 1 -> is_number (float_clamp v float_epsilon float_below_one) /\ number (float_clamp v float_epsilon float_below_one) = Rmax (number v) (number float_epsilon).
Proof.
  intros N B. destruct epsilon_is as [Ne _]. destruct below_one_is as [Nb Vb]. unfold float_clamp. destruct (flt v float_epsilon) eqn:C.
  - apply (flt_true v float_epsilon N Ne) in C. fold (number v) (number float_epsilon) in C. split; [exact Ne|]. rewrite Rmax_right by lra. reflexivity.
  - assert (L : number float_epsilon <= number v). { destruct (Rlt_or_le (number v) (number float_epsilon)) as [Q|Q]; [|exact Q]. exfalso. apply (flt_true v float_epsilon N Ne) in Q. congruence. }
    assert (X : flt float_below_one v = false). { destruct (flt float_below_one v) eqn:Q; [|reflexivity]. apply (flt_true float_below_one v Nb N) in Q. fold (number v) (number float_below_one) in Q. rewrite Vb in Q. lra. }
    rewrite X. split; [exact N|]. rewrite Rmax_left by exact L. reflexivity.
Qed.
Lemma clipped_range x : x <= 1 -> number float_epsilon <= clipped x <= 1.
Proof. intros H. unfold clipped. split; [apply Rmax_r|]. apply Rmax_lub; [exact H|]. rewrite epsilon_value. lra. Qed.
Lemma log_of f v : accurate_log f -> is_number v -> 0 <= number v <= 1 -> let w := f (float_clamp v float_epsilon float_below_one) in
  is_number w /\ number w <= 0 /\ -20 - 40 * unit_error <= number w /\ Rabs (number w - ln (clipped (number v))) <= 40 * unit_error /\ (number v = 1 -> number w = 0).
Proof.
  intros A N B w. destruct (clamp_is v N B) as [Nc Vc]. set (c := float_clamp v float_epsilon float_below_one) in *. pose proof (clipped_range (number v) ltac:(lra)) as Rc. fold (clipped (number v)) in Vc. destruct (A c Nc) as [Nw Ew]; [rewrite Vc; exact Rc|]. fold w in Nw, Ew. rewrite Vc in Ew. pose proof (log_range _ Rc) as L. set (l := ln (clipped (number v))) in *.
  rewrite (Rabs_left1 l) in Ew by lra. pose proof unit_pos as U. assert (2 * unit_error * - l <= 40 * unit_error). { replace (40 * unit_error) with (2 * unit_error * 20) by ring. apply Rmult_le_compat_l; lra. }
  assert (V : 2 * unit_error * - l <= - l). { rewrite <- (Rmult_1_l (- l)) at 2. apply Rmult_le_compat_r; [lra|]. rewrite unit_value. lra. }
  split; [exact Nw|]. pose proof (Rabs_le_inv _ _ Ew) as Ew'. split; [lra|]. split; [lra|]. split; [lra|]. intros V1. assert (l = 0). { unfold l, clipped. rewrite V1, Rmax_left by (rewrite epsilon_value; lra). apply ln_1. } lra.
Qed.
Lemma clipped_off q' q : 0 <= q -> off unit_error q' q -> Rabs (ln (clipped q') - ln (clipped q)) <= 2 * unit_error.
Proof.
  intros Hq (e & Be & E). apply Rabs_le_inv in Be. rewrite unit_value in *. unfold clipped. assert (Pe : 0 < number float_epsilon) by (rewrite epsilon_value; lra). set (eps := number float_epsilon) in *. set (x := Rmax q' eps). set (y := Rmax q eps).
  assert (Px : eps <= x) by apply Rmax_r. assert (Py : eps <= y) by apply Rmax_r. assert (Qy : q <= y) by apply Rmax_l. assert (Qx : q' <= x) by apply Rmax_l.
  assert (B1 : x <= y * (1 + / 16777216)). { apply Rmax_lub; [|lra]. rewrite E. apply Rle_trans with (q * (1 + / 16777216)); [apply Rmult_le_compat_l; lra|apply Rmult_le_compat_r; lra]. }
  assert (B2 : y * (1 - / 16777216) <= x). { unfold y. destruct (Rle_or_lt q eps) as [L|L]; [rewrite Rmax_right by exact L; lra|rewrite Rmax_left by lra]. apply Rle_trans with q'; [|exact Qx]. rewrite E. apply Rmult_le_compat_l; lra. }
  assert (D1 : ln x - ln y <= / 16777216). { assert (ln x <= ln (y * (1 + / 16777216))) by (apply log_le; lra). rewrite ln_mult in H by lra. pose proof (exp_ineq1_le (/ 16777216)) as X. assert (ln (1 + / 16777216) <= / 16777216) by (rewrite <- (ln_exp (/ 16777216)) at 2; apply log_le; lra). lra. }
  assert (D2 : ln y - ln x <= 2 * / 16777216). { assert (ln y <= ln (x * (1 + 2 * / 16777216))) by (apply log_le; lra). rewrite ln_mult in H by lra. pose proof (exp_ineq1_le (2 * / 16777216)) as X. assert (ln (1 + 2 * / 16777216) <= 2 * / 16777216) by (rewrite <- (ln_exp (2 * / 16777216)) at 2; apply log_le; lra). lra. }
  apply Rabs_le. lra.
Qed.

(** ** One element of the cross-entropies *)
Definition clamped (v : F) : F := float_clamp v float_epsilon float_below_one.
Definition bce_element (logf : F -> F) (t p : F) : F :=
  fmul (of_Z (-1)) (fadd (fmul t (logf (clamped (clamped p)))) (fmul (fsub float1 t) (logf (clamped (clamped (fsub float1 p)))))).
Definition cce_element (logf : F -> F) (t p : F) : F := fmul (fmul (of_Z (-1)) t) (logf (clamped p)).
Lemma clamped_is v : is_number v -> 0 <= number v <= 1 -> is_number (clamped v) /\ number (clamped v) = clipped (number v) /\ 0 <= number (clamped v) <= 1.
Proof. intros N B. destruct (clamp_is v N B) as [A V]. unfold clamped. split; [exact A|]. split; [exact V|]. rewrite V. pose proof (clipped_range (number v) ltac:(lra)). unfold clipped in *. pose proof epsilon_value. lra. Qed.
Lemma clipped_twice x : clipped (clipped x) = clipped x.
Proof. unfold clipped. apply Rmax_left. apply Rmax_r. Qed.
Lemma small_product a b : 0 <= a <= 1 -> -21 <= b <= 0 -> -21 <= a * b <= 0 /\ a * b >= b.
Proof. intros Ha Hb. assert (a * b >= b) by (assert (0 <= (1 - a) * - b) by (apply Rmult_le_pos; lra); lra). assert (0 <= a * - b) by (apply Rmult_le_pos; lra). lra. Qed.
Lemma F32_small z : (Z.abs z <= 1024)%Z -> F32 (IZR z).
Proof. intros H. destruct (small_is z ltac:(lia)) as [_ V]. rewrite <- V. apply number_format. Qed.
Lemma cce_element_is logf t p : accurate_log logf -> is_number t -> is_number p -> 0 <= number t <= 1 -> 0 <= number p <= 1 ->
  is_number (cce_element logf t p) /\ 0 <= number (cce_element logf t p) <= 21 /\ Rabs (number (cce_element logf t p) - - (number t * ln (clipped (number p)))) <= 110 * unit_error.
Proof.
  intros A Nt Np Ht Hp. destruct (log_of logf p A Np Hp) as (Nl & Hl & Ll & El & _). fold (clamped p) in *. set (l := logf (clamped p)) in *. destruct (minus_one t Nt) as [Nm Vm]. pose proof unit_pos as U. pose proof tiny_pos as Ty. pose proof unit_value as UV.
  assert (T1 : tiny <= unit_error) by (rewrite UV; eapply Rle_trans; [apply tiny_le|]; apply Rinv_le; lra).
  destruct (small_product (number t) (number l) Ht ltac:(rewrite UV in Ll; lra)) as [Bp _]. assert (Ep : - number t * number l = - (number t * number l)) by ring.
  destruct (mul_is (fmul (of_Z (-1)) t) l Nm Nl) as [N V]; [rewrite Vm, Ep, Rabs_Ropp, Rabs_left1 by lra; assert (2 ^ 5 <= 2 ^ 127) by (apply Rle_pow; [lra|lia]); lra|]. rewrite Vm, Ep in V. unfold cce_element. fold l. split; [exact N|]. rewrite V.
  split; [split; [apply rnd_ge0; lra|apply rnd_le_F; [apply (F32_small 21); lia|lra]]|]. pose proof (close_below (- (number t * number l)) 21 ltac:(rewrite Rabs_Ropp, Rabs_left1; lra)) as C.
  apply Rabs_le_inv in El. set (x := ln (clipped (number p))) in *. assert (E2 : number t * number l - number t * x = number t * (number l - x)) by ring. assert (E3 : Rabs (number t * (number l - x)) <= 40 * unit_error) by (rewrite Rabs_mult, (Rabs_pos_eq (number t)) by lra; rewrite <- (Rmult_1_l (40 * unit_error)); apply Rmult_le_compat; try apply Rabs_pos; try lra; apply Rabs_le; lra).
  apply Rabs_le_inv in E3. apply Rabs_le. lra.
Qed.
Lemma bce_element_is logf t p : accurate_log logf -> is_number t -> is_number p -> 0 <= number t <= 1 -> 0 <= number p <= 1 ->
  is_number (bce_element logf t p) /\ 0 <= number (bce_element logf t p) <= 21 /\
  Rabs (number (bce_element logf t p) - - (number t * ln (clipped (number p)) + (1 - number t) * ln (clipped (1 - number p)))) <= 110 * unit_error /\
  (number t = number p -> number p = 0 \/ number p = 1 -> number (bce_element logf t p) = 0).
Proof.
  intros A Nt Np Ht Hp. destruct (rest_of p Np Hp) as (Nq & Vq & Bq & Oq & _). destruct (rest_of t Nt Ht) as (Ns & Vs & Bs & Os & _). pose proof unit_pos as U. pose proof tiny_pos as Ty. pose proof unit_value as UV.
  assert (T1 : tiny <= / 1000 * unit_error) by (rewrite UV; eapply Rle_trans; [apply tiny_le|]; rewrite <- Rinv_mult; apply Rinv_le; lra).
  destruct (clamped_is p Np Hp) as (Nc & Vc & Bc). destruct (clamped_is (fsub float1 p) Nq Bq) as (Nd & Vd & Bd).
  destruct (log_of logf (clamped p) A Nc Bc) as (Nl & Hl & Ll & El & Zl). fold (clamped (clamped p)) in *. set (l := logf (clamped (clamped p))) in *. rewrite Vc, clipped_twice in El.
  destruct (log_of logf (clamped (fsub float1 p)) A Nd Bd) as (Nk & Hk & Lk & Ek & Zk). fold (clamped (clamped (fsub float1 p))) in *. set (k := logf (clamped (clamped (fsub float1 p)))) in *. rewrite Vd, clipped_twice in Ek.
  pose proof (clipped_off (number (fsub float1 p)) (1 - number p) ltac:(lra) Oq) as Eq. apply Rabs_le_inv in El, Ek, Eq. pose proof (log_range _ (clipped_range (number p) ltac:(lra))) as Rx. pose proof (log_range _ (clipped_range (1 - number p) ltac:(lra))) as Ry.
  set (x := ln (clipped (number p))) in *. set (y := ln (clipped (1 - number p))) in *. set (z := ln (clipped (number (fsub float1 p)))) in *. clearbody x y z.
  assert (Bl : -21 <= number l <= 0) by (rewrite UV in Ll; lra). assert (Bk : -21 <= number k <= 0) by (rewrite UV in Lk; lra).
  destruct (small_product (number t) (number l) Ht Bl) as [B1 _]. destruct (small_product (number (fsub float1 t)) (number k) Bs Bk) as [B2 _]. assert (Big : 2 ^ 6 <= 2 ^ 127) by (apply Rle_pow; [lra|lia]).
  destruct (mul_is t l Nt Nl) as [N1 V1]; [rewrite Rabs_left1; lra|]. destruct (mul_is (fsub float1 t) k Ns Nk) as [N2 V2]; [rewrite Rabs_left1; lra|].
  set (T := number t) in *. set (S1 := number (fsub float1 t)) in *. apply off_abs in Os. rewrite (Rabs_pos_eq (1 - T)) in Os by lra. apply Rabs_le_inv in Os.
  pose proof (close_to (T * number l)) as C1. rewrite Rabs_left1 in C1 by lra. pose proof (close_to (S1 * number k)) as C2. rewrite Rabs_left1 in C2 by lra. rewrite <- V1 in C1. rewrite <- V2 in C2.
  assert (M1 : - (40 * unit_error * T) <= T * number l - T * x <= 40 * unit_error * T). { replace (T * number l - T * x) with (T * (number l - x)) by ring. assert (T * (number l - x) <= T * (40 * unit_error)) by (apply Rmult_le_compat_l; lra). assert (T * - (40 * unit_error) <= T * (number l - x)) by (apply Rmult_le_compat_l; lra). lra. }
  assert (M2 : - (42 * unit_error * (1 - T)) <= (1 - T) * number k - (1 - T) * y <= 42 * unit_error * (1 - T)). { replace ((1 - T) * number k - (1 - T) * y) with ((1 - T) * (number k - y)) by ring. assert ((1 - T) * (number k - y) <= (1 - T) * (42 * unit_error)) by (apply Rmult_le_compat_l; lra). assert ((1 - T) * - (42 * unit_error) <= (1 - T) * (number k - y)) by (apply Rmult_le_compat_l; lra). lra. }
  assert (M3 : - (21 * unit_error * (1 - T)) <= S1 * number k - (1 - T) * number k <= 21 * unit_error * (1 - T)).
  { replace (S1 * number k - (1 - T) * number k) with ((S1 - (1 - T)) * number k) by ring. apply Rabs_le_inv. rewrite Rabs_mult. replace (21 * unit_error * (1 - T)) with (unit_error * (1 - T) * 21) by ring. apply Rmult_le_compat; try apply Rabs_pos; apply Rabs_le; lra. }
  destruct (small_product T x Ht ltac:(lra)) as [B3 _]. destruct (small_product (1 - T) y ltac:(lra) ltac:(lra)) as [B4 _].
  assert (SumB : -20 <= T * x + (1 - T) * y). { assert (T * -20 <= T * x) by (apply Rmult_le_compat_l; lra). assert ((1 - T) * -20 <= (1 - T) * y) by (apply Rmult_le_compat_l; lra). lra. }
  set (m1 := number (fmul t l)) in *. set (m2 := number (fmul (fsub float1 t) k)) in *.
  assert (Q1 : m1 <= 0) by (rewrite V1; rewrite <- rnd_0; apply rnd_le; lra). assert (Q2 : m2 <= 0) by (rewrite V2; rewrite <- rnd_0; apply rnd_le; lra).
  assert (Up1 : unit_error * (T * - number l) <= unit_error * (T * 21)) by (apply Rmult_le_compat_l; [lra|]; apply Rmult_le_compat_l; lra).
  assert (Up2 : unit_error * (S1 * - number k) <= unit_error * 21 * (1 - T) + unit_error). { apply Rle_trans with (unit_error * (((1 - T) + unit_error * (1 - T)) * 21)); [apply Rmult_le_compat_l; [lra|]; apply Rmult_le_compat; lra|]. assert (unit_error * (unit_error * (1 - T) * 21) <= unit_error * 1); [|lra]. apply Rmult_le_compat_l; [lra|]. rewrite UV. lra. }
  assert (Mid : Rabs (m1 + m2 - (T * x + (1 - T) * y)) <= 86 * unit_error) by (apply Rabs_le; lra). apply Rabs_le_inv in Mid.
  destruct (add_is (fmul t l) (fmul (fsub float1 t) k) N1 N2) as [N3 V3]; fold m1 m2; [rewrite Rabs_left1 by lra; rewrite UV in Mid; lra|]. fold m1 m2 in V3. destruct (minus_one _ N3) as [N4 V4]. unfold bce_element. fold l k. split; [exact N4|]. rewrite V4, V3.
  assert (Low : -21 <= m1 + m2 <= 0) by (rewrite UV in Mid; lra). assert (R1 : -21 <= rnd (m1 + m2) <= 0) by (split; [apply rnd_ge_F; [apply (F32_small (-21)); lia|lra]|rewrite <- rnd_0; apply rnd_le; lra]). split; [lra|]. split.
  - pose proof (close_below (m1 + m2) 21 ltac:(rewrite Rabs_left1; lra)) as C. apply Rabs_le. lra.
  - intros Eqt [Z|Z].
    + assert (Hz : T = 0) by lra. assert (number (fsub float1 p) = 1) by (rewrite Vq, Z, Rminus_0_r; apply rnd_id; apply F32_1). assert (number k = 0). { apply Zk. rewrite Vd. unfold clipped. rewrite H, epsilon_value. apply Rmax_left. lra. } assert (m1 = 0) by (rewrite V1, Hz, Rmult_0_l; apply rnd_0). assert (m2 = 0) by (rewrite V2, H0, Rmult_0_r; apply rnd_0). rewrite H1, H2, Rplus_0_r, rnd_0. ring.
    + assert (Hz : T = 1) by lra. assert (number l = 0). { apply Zl. rewrite Vc. unfold clipped. rewrite Z, epsilon_value. apply Rmax_left. lra. } assert (S1 = 0) by (rewrite Vs; fold T; rewrite Hz; replace (1 - 1) with 0 by ring; apply rnd_0). assert (m1 = 0) by (rewrite V1, H, Rmult_0_r; apply rnd_0). assert (m2 = 0) by (rewrite V2, H0, Rmult_0_l; apply rnd_0). rewrite H1, H2, Rplus_0_r, rnd_0. ring.
Qed.

(** ** Sums *)
Lemma sum_losses : forall (l : list (F * R)) a s k, (Z.of_nat (k + length l) <= 1048576)%Z -> finite64 a = true -> 0 <= val64 a <= 22 * INR k -> Rabs (val64 a - s) <= INR k * (111 * unit_error) ->
  (forall x r, In (x, r) l -> is_number x /\ 0 <= number x <= 21 /\ Rabs (number x - r) <= 110 * unit_error) ->
  let v := fold_left step64 (map fst l) a in finite64 v = true /\ 0 <= val64 v <= 22 * INR (k + length l) /\ Rabs (val64 v - (s + sum_of (map snd l))) <= INR (k + length l) * (111 * unit_error).
Proof.
  induction l as [|[x r] l IH]; intros a s k Hk Fa Ba Ea Hl v.
  - cbn [map sum_of fold_right length] in *. subst v. cbn [fold_left]. rewrite Nat.add_0_r, Rplus_0_r. split; [exact Fa|]. split; assumption.
  - cbn [map fst snd length sum_of fold_right] in *. fold (sum_of (map snd l)). destruct (Hl x r (or_introl eq_refl)) as (Nx & Bx & Ex). destruct (widen_is x Nx) as [Fw Vw].
    assert (K : INR k <= 1048576) by (rewrite INR_IZR_INZ; apply IZR_le; lia).
    assert (P500 : 2 ^ 40 <= 2 ^ 500) by (apply Rle_pow; [lra|lia]).
    destruct (dadd_is a (widen x) Fa Fw) as [F1 V1]; [rewrite Vw, Rabs_pos_eq; lra|]. rewrite Vw in V1. pose proof (sum_error64 (val64 a) (number x) (F64_val a) ltac:(rewrite <- Vw; apply F64_val)) as E1. rewrite <- V1, (Rabs_pos_eq (val64 a + number x)), double_value in E1 by lra.
    assert (B1 : 0 <= val64 (dadd a (widen x))) by (rewrite V1; rewrite <- (rnd64_id 0) by apply generic_format_0; apply rnd64_le; lra). apply Rabs_le_inv in E1, Ea, Ex. pose proof unit_value as UV.
    destruct (IH (dadd a (widen x)) (s + r) (S k)) as (F2 & B2 & E2); [lia|exact F1|rewrite S_INR; lra| |intros y q I; apply Hl; now right|].
    + rewrite S_INR. apply Rabs_le. rewrite UV in *. lra.
    + subst v. cbn [fold_left]. change (add64 a (widen x)) with (dadd a (widen x)). replace (k + S (length l))%nat with (S k + length l)%nat by lia. split; [exact F2|]. split; [exact B2|]. replace (s + (r + sum_of (map snd l))) with (s + r + sum_of (map snd l)) by ring. exact E2.
Qed.
Lemma loss_sum : forall (l : list (F * R)), (Z.of_nat (length l) <= 1048576)%Z -> (forall x r, In (x, r) l -> is_number x /\ 0 <= number x <= 21 /\ Rabs (number x - r) <= 110 * unit_error) ->
  let v := narrow (fold_left step64 (map fst l) (B754_zero 53 1024 false)) in is_number v /\ 0 <= number v /\ Rabs (number v - sum_of (map snd l)) <= INR (length l) / 100000.
Proof.
  intros l Hl H v. destruct (sum_losses l (B754_zero 53 1024 false) 0 0 Hl eq_refl) as (F1 & B1 & E1); [cbn; lra|cbn; rewrite Rminus_0_r, Rabs_R0; lra|exact H|]. rewrite Rplus_0_l in E1. cbn [Nat.add] in *. set (w := fold_left step64 (map fst l) (B754_zero 53 1024 false)) in *.
  assert (K : INR (length l) <= 1048576) by (rewrite INR_IZR_INZ; apply IZR_le; exact Hl). assert (P127 : 2 ^ 40 <= 2 ^ 127) by (apply Rle_pow; [lra|lia]).
  destruct (narrow_is w F1) as [N V]; [apply in_range; rewrite Rabs_pos_eq; lra|]. fold v in N, V. split; [exact N|]. split; [rewrite V; apply rnd_ge0; lra|]. rewrite V. pose proof (close_below (val64 w) (22 * INR (length l)) ltac:(rewrite Rabs_pos_eq; lra)) as C. pose proof unit_value as UV. apply Rabs_le_inv in E1.
  destruct l as [|c l'].
  - subst w. cbn [map fold_left] in *. change (val64 (B754_zero 53 1024 false)) with 0 in *. cbn [sum_of fold_right length INR] in *. rewrite rnd_0 in *. rewrite Rminus_0_r, Rabs_R0. lra.
  - assert (1 <= INR (length (c :: l'))) by (change 1 with (INR 1); apply le_INR; cbn; lia). pose proof tiny_le as T. assert (tiny <= / 1000000000) by (eapply Rle_trans; [exact T|]; apply Rinv_le; lra). set (n := INR (length (c :: l'))) in *. rewrite UV in *. apply Rabs_le. lra.
Qed.

(** ** The mean stays between the smallest and the largest element *)
Lemma pull v a k : F64 v -> F64 a -> 2 <= k -> let y := rnd64 (rnd64 (v - a) / k) in Rabs y <= Rabs (v - a) /\ (a <= v -> 0 <= y) /\ (v <= a -> y <= 0).
Proof.
  intros Fv Fa Hk y. assert (Ik : 0 < / k <= / 2) by (split; [apply Rinv_0_lt_compat; lra|apply Rinv_le; lra]). assert (R0 : rnd64 0 = 0) by (apply rnd64_id; apply generic_format_0).
  split; [|split; intros L].
  - assert (Fo : F64 (- a)) by (apply generic_format_opp; exact Fa). destruct (Rle_or_lt (Rabs (v - a)) (bpow radix2 (53 + -1074))) as [S1|S1].
    + assert (Fd : F64 (v - a)) by (apply (@FLT_format_plus_small radix2 (-1074) 53 prec64_ok v (- a) Fv Fo S1)). subst y. rewrite (rnd64_id _ Fd). apply abs_round_le_generic; [typeclasses eauto|typeclasses eauto|apply generic_format_abs; exact Fd|]. unfold Rdiv. rewrite Rabs_mult, (Rabs_pos_eq (/ k)) by lra. rewrite <- (Rmult_1_r (Rabs (v - a))) at 2. apply Rmult_le_compat_l; [apply Rabs_pos|lra].
    + pose proof (sum_error64 v (- a) Fv Fo) as E. change (v + - a) with (v - a) in E. pose proof (error64 (rnd64 (v - a) / k)) as E2. fold y in E2. rewrite double_value in *. set (d := v - a) in *. set (x := rnd64 d) in *.
      assert (X : Rabs x <= Rabs d + / 9007199254740992 * Rabs d) by (replace x with (x - d + d) by ring; eapply Rle_trans; [apply Rabs_triang|lra]). assert (Xk : Rabs (x / k) <= / 2 * Rabs x) by (unfold Rdiv; rewrite Rabs_mult, (Rabs_pos_eq (/ k)) by lra; rewrite Rmult_comm; apply Rmult_le_compat_r; [apply Rabs_pos|lra]).
      assert (Y : Rabs y <= Rabs (x / k) + / 9007199254740992 * Rabs (x / k) + tiny64) by (replace y with (y - x / k + x / k) by ring; eapply Rle_trans; [apply Rabs_triang|lra]).
      assert (Tn : tiny64 <= / 16 * Rabs d). { apply Rle_trans with (/ 16 * bpow radix2 (53 + -1074)); [|lra]. unfold tiny64. change (-1075)%Z with (-54 + (53 + -1074))%Z. rewrite bpow_plus. apply Rmult_le_compat_r; [apply bpow_ge_0|]. change (bpow radix2 (-54)) with (/ 18014398509481984). apply Rinv_le; lra. }
      pose proof (Rabs_pos d). lra.
  - subst y. rewrite <- R0. apply rnd64_le. apply Rmult_le_pos; [|lra]. rewrite <- R0. apply rnd64_le. lra.
  - subst y. rewrite <- R0. apply rnd64_le. assert (rnd64 (v - a) <= 0) by (rewrite <- R0; apply rnd64_le; lra). unfold Rdiv. assert (0 <= - rnd64 (v - a) * / k) by (apply Rmult_le_pos; lra). lra.
Qed.
Lemma big_fits : 8 * max32 <= 2 ^ 500.
Proof. change max32 with (bpow radix2 128). change (bpow radix2 128) with (IZR (2 ^ 128)). rewrite (pow_IZR 2 500), <- mult_IZR. apply IZR_le. apply Z.leb_le. reflexivity. Qed.
Lemma mean_run : forall l s k lo hi, (Z.of_nat (k + length l) < 9007199254740992)%Z -> (forall x, In x l -> is_number x /\ lo <= number x <= hi) ->
  finite64 (fst s) = true -> finite64 (snd s) = true -> val64 (snd s) = INR k -> (k = 0%nat -> val64 (fst s) = 0) -> (k <> 0%nat -> lo <= val64 (fst s) <= hi) -> - max32 <= val64 (fst s) <= max32 -> - max32 <= lo -> hi <= max32 ->
  let v := fold_left mean_step l s in finite64 (fst v) = true /\ (k <> 0%nat \/ l <> [] -> lo <= val64 (fst v) <= hi).
Proof.
  induction l as [|x l IH]; intros [a i] k lo hi Hk Hl Fa Fi Vi Z0 Zk Ba Bl Bh; cbn [fst snd] in *; cbv zeta; cbn [fold_left].
  - split; [exact Fa|]. intros [Q|Q]; [now apply Zk|congruence].
  - cbn [length] in Hk. destruct (Hl x (or_introl eq_refl)) as [Nx Bx]. destruct (widen_is x Nx) as [Fw Vw]. destruct (double_of_is 1 ltac:(cbn; lia)) as [F1 V1]. pose proof big_fits as BF. assert (M0 : 0 < max32) by apply bpow_gt_0.
    assert (Kb : INR k + 1 <= 9007199254740992) by (rewrite <- S_INR, INR_IZR_INZ; apply IZR_le; lia).
    assert (P500 : 2 ^ 60 <= 2 ^ 500) by (apply Rle_pow; [lra|lia]). pose proof (pos_INR k) as PK.
    destruct (dadd_is i (double_of 1) Fi F1) as [Fj Vj]; [rewrite Vi, V1; cbn [INR]; rewrite Rabs_pos_eq; lra|].
    assert (Vj' : val64 (dadd i (double_of 1)) = INR (S k)). { rewrite Vj, Vi, V1. change (INR 1) with 1. rewrite <- S_INR. apply rnd64_id. destruct (double_of_is (S k) ltac:(lia)) as [_ Q]. rewrite <- Q. apply F64_val. }
    destruct (dsub_is (widen x) a Fw Fa) as [Fd Vd]; [rewrite Vw; apply Rabs_le; lra|]. rewrite Vw in Vd.
    assert (Dx : Rabs (val64 (dsub (widen x) a)) <= 4 * max32). { rewrite Vd. apply abs_round_le_generic; [typeclasses eauto|typeclasses eauto| |apply Rabs_le; lra]. replace (4 * max32) with (bpow radix2 130); [apply F64_bpow; lia|]. change max32 with (bpow radix2 128). change 130%Z with (2 + 128)%Z. rewrite bpow_plus. reflexivity. }
    assert (Sk : 1 <= INR (S k)) by (rewrite S_INR; lra). assert (Isk : 0 < / INR (S k) <= 1) by (split; [apply Rinv_0_lt_compat; lra|rewrite <- Rinv_1; apply Rinv_le; lra]).
    destruct (ddiv_is (dsub (widen x) a) (dadd i (double_of 1)) Fd) as [Fy Vy]; [rewrite Vj'; lra|rewrite Vj'; unfold Rdiv; rewrite Rabs_mult, (Rabs_pos_eq (/ _)) by lra; apply Rle_trans with (4 * max32 * 1); [apply Rmult_le_compat; try apply Rabs_pos; lra|lra]|]. rewrite Vj', Vd in Vy.
    set (j := dadd i (double_of 1)) in *. set (y := ddiv (dsub (widen x) a) j) in *.
    assert (Step : Rabs (val64 y) <= 4 * max32 /\ lo <= rnd64 (val64 a + val64 y) <= hi).
    { assert (Fx64 : F64 (number x)) by (rewrite <- Vw; apply F64_val). destruct k as [|k].
      - rewrite (Z0 eq_refl) in *. rewrite Rminus_0_r in Vd, Vy. rewrite (rnd64_id _ Fx64) in *. cbn [INR] in Vy. rewrite Rdiv_1 in Vy || (unfold Rdiv in Vy; rewrite Rinv_1, Rmult_1_r in Vy). rewrite (rnd64_id _ Fx64) in Vy. rewrite Vy, Rplus_0_l, (rnd64_id _ Fx64). split; [apply Rabs_le; lra|exact Bx].
      - assert (Za := Zk ltac:(lia)). destruct (pull (number x) (val64 a) (INR (S (S k))) Fx64 (F64_val a)) as (Py & Pp & Pn); [rewrite !S_INR in *; pose proof (pos_INR k); lra|]. cbv zeta in *. rewrite <- Vy in Py, Pp, Pn. split; [eapply Rle_trans; [exact Py|]; apply Rabs_le; lra|].
        destruct (Rle_or_lt (val64 a) (number x)) as [L|L].
        + specialize (Pp L). rewrite (Rabs_pos_eq (number x - val64 a)), Rabs_pos_eq in Py by lra. split; [apply Rle_trans with (rnd64 (val64 a)); [rewrite (rnd64_id _ (F64_val a)); lra|apply rnd64_le; lra]|apply Rle_trans with (rnd64 (number x)); [apply rnd64_le; lra|rewrite (rnd64_id _ Fx64); lra]].
        + specialize (Pn ltac:(lra)). rewrite (Rabs_left1 (number x - val64 a)), Rabs_left1 in Py by lra. split; [apply Rle_trans with (rnd64 (number x)); [rewrite (rnd64_id _ Fx64); lra|apply rnd64_le; lra]|apply Rle_trans with (rnd64 (val64 a)); [apply rnd64_le; lra|rewrite (rnd64_id _ (F64_val a)); lra]]. }
    destruct Step as [Sy Sr]. apply Rabs_le_inv in Sy. destruct (dadd_is a y Fa Fy) as [Fr Vr]; [apply Rabs_le; lra|].
    change (mean_step (a, i) x) with (dadd a y, j).
    assert (G : finite64 (fst (fold_left mean_step l (dadd a y, j))) = true /\ (S k <> 0%nat \/ l <> [] -> lo <= val64 (fst (fold_left mean_step l (dadd a y, j))) <= hi)).
    { apply (IH (dadd a y, j) (S k) lo hi); cbn [fst snd]; [lia|intros z I; apply Hl; now right|exact Fr|exact Fj|exact Vj'|intros Q; discriminate Q|intros _; rewrite Vr; exact Sr|rewrite Vr; lra|exact Bl|exact Bh]. }
    destruct G as [G1 G2]. split; [exact G1|]. intros _. apply G2. now left.
Qed.
Lemma mean_between : forall l lo hi, (Z.of_nat (length l) < 9007199254740992)%Z -> l <> [] -> F32 lo -> F32 hi -> - max32 < lo -> hi < max32 -> (forall x, In x l -> is_number x /\ lo <= number x <= hi) ->
  let v := narrow (fst (fold_left mean_step l (double0, double0))) in is_number v /\ lo <= number v <= hi.
Proof.
  intros l lo hi Hl Ne Fl Fh Bl Bh H v. assert (M0 : 0 < max32) by apply bpow_gt_0. destruct (mean_run l (double0, double0) 0 lo hi) as [F1 B1]; cbn [fst snd Nat.add]; try assumption; try reflexivity; try lra; try (intros Q; congruence); try (change (val64 double0) with 0; lra).
  specialize (B1 (or_intror Ne)). set (w := fst _) in *. assert (R1 : lo <= rnd (val64 w) <= hi) by (split; [apply rnd_ge_F|apply rnd_le_F]; try assumption; lra). destruct (narrow_is w F1) as [N V]; [apply Rabs_def1; lra|]. fold v in N, V. split; [exact N|]. rewrite V. exact R1.
Qed.

(** ** Saturation *)
Lemma sigmoid_one lib eps x : 0 <= eps <= 1 -> accurate_exp (expf lib) eps -> is_number x -> 20 <= number x -> is_number (float_sigmoid lib x) /\ number (float_sigmoid lib x) = 1.
Proof.
  intros He A N H. destruct (minus_one x N) as [Nm Vm]. unfold float_sigmoid. set (m := fmul (of_Z (-1)) x) in *. assert (X : exp (number m) <= / 150000000).
  { rewrite Vm. apply Rle_trans with (exp (Ropp 20)); [destruct H as [H| <-]; [left; apply exp_increasing; lra|right; reflexivity]|]. rewrite exp_Ropp. apply Rinv_le; [lra|apply exp_20]. }
  pose proof (exp_pos (number m)) as P. assert (P127 : 2 <= 2 ^ 127) by (rewrite <- (pow_1 2) at 1; apply Rle_pow; [lra|lia]). assert (T : tiny <= / 1000000000) by (eapply Rle_trans; [apply tiny_le|]; apply Rinv_le; lra).
  destruct (A m Nm) as [(Ne & Pe & Ee)|[_ Q]]; [|exfalso; lra]. set (z := expf lib m) in *. assert (Z : number z <= / 60000000). { apply Rabs_le_inv in Ee. assert (eps * exp (number m) <= 1 * / 150000000) by (apply Rmult_le_compat; lra). lra. }
  destruct float1_is as [N1 V1]. destruct (add_is float1 z N1 Ne) as [Nd Vd]; [rewrite V1, Rabs_pos_eq; lra|]. rewrite V1 in Vd.
  assert (One : rnd (1 + number z) = 1).
  { destruct (round_N_pt radix2 (SpecFloat.fexp 24 128) (fun q => negb (Z.even q)) (1 + number z)) as [_ M]. specialize (M 1 F32_1). fold (rnd (1 + number z)) in M. assert (G : 1 <= rnd (1 + number z)) by (apply rnd_ge_F; [apply F32_1|lra]).
    destruct (Rle_or_lt (rnd (1 + number z)) 1) as [L|L]; [lra|exfalso]. assert (S1 : 1 + 2 * unit_error <= rnd (1 + number z)).
    { assert (Su : 1 + 2 * unit_error = succ radix2 (SpecFloat.fexp 24 128) 1). { rewrite succ_eq_pos by lra. change 1 with (bpow radix2 0) at 3. rewrite ulp_bpow. change (SpecFloat.fexp 24 128 (0 + 1)) with (-23)%Z. rewrite unit_value. change (bpow radix2 (-23)) with (/ 8388608). lra. }
      rewrite Su. apply succ_le_lt; try typeclasses eauto; [apply F32_1|apply F32_rnd|exact L]. }
    rewrite unit_value in S1. set (w := rnd (1 + number z)) in *. rewrite (Rabs_left1 (1 - _)) in M by lra. rewrite Rabs_pos_eq in M by lra. lra. }
  destruct (div_is float1 (fadd float1 z) N1) as [Nr Vr]; rewrite ?Vd, ?One; [lra|rewrite V1; unfold Rdiv; rewrite Rinv_1, Rmult_1_r, Rabs_R1; lra|]. split; [exact Nr|]. rewrite Vr, V1, Vd, One. unfold Rdiv. rewrite Rinv_1, Rmult_1_r. apply rnd_id. apply F32_1.
Qed.
Lemma exp_100 : 2 ^ 130 <= exp 100.
Proof.
  replace 100 with (20 + (20 + (20 + (20 + 20)))) by lra. rewrite !exp_plus. pose proof exp_20 as E. set (x := exp 20) in *. assert (2 ^ 27 <= x) by lra. clearbody x. replace (2 ^ 130) with (2 ^ 26 * (2 ^ 26 * (2 ^ 26 * (2 ^ 26 * 2 ^ 26)))) by (rewrite <- !pow_add; reflexivity).
  assert (P : 0 <= 2 ^ 26 <= x) by lra. clear E H. set (y := 2 ^ 26) in *. clearbody y. repeat (apply Rmult_le_compat; [lra|try (repeat apply Rmult_le_pos; lra)|lra|]). lra.
Qed.
Lemma sigmoid_zero lib eps x : 0 <= eps <= / 2 -> accurate_exp (expf lib) eps -> is_number x -> number x <= -100 -> is_number (float_sigmoid lib x) /\ number (float_sigmoid lib x) = 0.
Proof.
  intros He A N H. destruct (minus_one x N) as [Nm Vm]. unfold float_sigmoid. set (m := fmul (of_Z (-1)) x) in *. assert (X : 2 ^ 130 <= exp (number m)).
  { rewrite Vm. eapply Rle_trans; [apply exp_100|]. destruct (Rle_lt_or_eq_dec 100 (- number x) ltac:(lra)) as [L|L]; [left; now apply exp_increasing|right; now rewrite L]. }
  assert (I : expf lib m = plus_infinity).
  { destruct (A m Nm) as [(Ne & Pe & Ee)|[Q _]]; [exfalso|exact Q]. pose proof (number_bounds (expf lib m)) as Bn. assert (M : max32 = 2 ^ 128) by (change max32 with (IZR (2 ^ 128)); rewrite pow_IZR; reflexivity). assert (Q : 4 * 2 ^ 128 = 2 ^ 130) by (replace 4 with (2 ^ 2) by lra; rewrite <- pow_add; reflexivity). assert (Pw : 1 <= 2 ^ 128) by (apply pow_R1_Rle; lra). assert (T : tiny <= 1) by (eapply Rle_trans; [apply tiny_le|]; rewrite <- Rinv_1; apply Rinv_le; lra).
    apply Rabs_le_inv in Ee. assert (eps * exp (number m) <= / 2 * exp (number m)) by (apply Rmult_le_compat_r; lra). rewrite M in Bn. lra. }
  rewrite I. destruct (one_over_is plus_infinity) as [Nr Vr]; [intros Q; discriminate Q|change (0 <= max32); pose proof max_pos; lra|]. change (one_over plus_infinity) with (fdiv float1 (fadd float1 plus_infinity)) in *. split; [exact Nr|]. rewrite Vr. destruct (Rlt_dec _ _) as [L|L]; [|reflexivity]. exfalso. change (order plus_infinity) with max32 in L. lra.
Qed.
