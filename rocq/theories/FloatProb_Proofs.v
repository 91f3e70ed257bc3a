(** Proofs about how near the probabilities softmax makes in [float] are to the exact ones. *)
From Coq Require Import List Arith Bool ZArith Reals Lia Lra.
From Flocq Require Import Core Relative Plus_error IEEE754.BinarySingleNaN IEEE754.Binary IEEE754.Bits.
From Verif Require Import Outcome Tensor_Model Tensor_Spec F32_Model F32_Proofs Reduce_Model Activation_Model Layer_Spec FloatNet_Model FloatNet_Spec FloatNet_Proofs FloatSoft_Proofs FloatAct_Proofs FloatExp_Proofs FloatRun_Spec FloatFaith_Proofs FloatLabel_Proofs.
From Verif Require Reduce_Spec Reduce_Proofs Scaling_Spec FloatNet_Props.
Import ListNotations.
Local Open Scope R_scope.
Notation order := Reduce_Spec.order.

(** ** Numbers *)
Lemma over_mono : forall a b c, 0 < c -> a <= b -> a / c <= b / c.
Proof. intros a b c C H. unfold Rdiv. apply Rmult_le_compat_r; [left; now apply Rinv_0_lt_compat|exact H]. Qed.
Lemma over_anti : forall a b c, 0 <= a -> 0 < b -> b <= c -> a / c <= a / b.
Proof. intros a b c A B H. unfold Rdiv. apply Rmult_le_compat_l; [exact A|]. now apply Rinv_le. Qed.
Section Bounds.
Context (E S g G D q K eps u t w w' y : R).
Context (E0 : 0 < E) (S0 : 0 < S) (G1 : 1 <= G) (g0 : 0 <= g) (K1 : 1 <= K) (He : 0 <= eps < 1) (Hu : 0 <= u < 1) (Ht : 0 <= t < 1) (Hw : 0 < w <= 1) (Hw' : 0 < w') (Ww : w * w' <= 1) (y0 : 0 <= y).
Context (g1 : (1 - eps) / K * E - y <= g) (g2 : g <= (1 + eps) * K * E + y) (G2 : (1 - eps) / K * S - t <= G) (G3 : G <= (1 + eps) * K * S + t).
Context (D1 : G * w * (1 - u) <= D) (D2 : D <= G * w' * (1 + u)) (Q : Rabs (q - g / D) <= u * (g / D) + y).
Let A : R := K * K * ((1 + eps) / (1 - eps)) / (1 - t).
Let B : R := (1 + u) / (1 - u) / w.
Lemma up_A : 1 <= A.
Proof.
  unfold A. apply Rle_trans with (1 * 1 * 1 / 1); [lra|]. apply Rle_trans with (K * K * ((1 + eps) / (1 - eps)) / 1).
  - apply over_mono; [lra|]. assert (1 <= (1 + eps) / (1 - eps)). { apply (Rmult_le_reg_r (1 - eps)); [lra|]. unfold Rdiv. rewrite Rmult_assoc, Rinv_l by lra. lra. } assert (1 * 1 <= K * K) by (apply Rmult_le_compat; lra). apply Rmult_le_compat; lra.
  - apply over_anti; [|lra|lra]. apply Rmult_le_pos; [apply Rmult_le_pos; lra|]. apply Rmult_le_pos; [lra|]. left. apply Rinv_0_lt_compat. lra.
Qed.
Lemma up_B : 1 <= B.
Proof.
  unfold B. apply Rle_trans with ((1 + u) / (1 - u) / 1).
  - assert (1 <= (1 + u) / (1 - u)); [|lra]. apply (Rmult_le_reg_r (1 - u)); [lra|]. unfold Rdiv. rewrite Rmult_assoc, Rinv_l by lra. lra.
  - apply over_anti; [|lra|lra]. apply Rmult_le_pos; [lra|]. left. apply Rinv_0_lt_compat. lra.
Qed.
Lemma part_up : g / G <= A * (E / S) + y.
Proof.
  apply Rle_trans with (((1 + eps) * K * E + y) / G); [apply over_mono; lra|]. unfold Rdiv at 1. rewrite Rmult_plus_distr_r. assert (Gi : 0 < / G <= 1) by (split; [apply Rinv_0_lt_compat; lra|rewrite <- Rinv_1; apply Rinv_le; lra]).
  apply Rplus_le_compat; [|rewrite <- (Rmult_1_r y) at 2; apply Rmult_le_compat_l; lra].
  assert (L : / G <= K / ((1 - eps) * (1 - t) * S)).
  { assert (P : 0 < (1 - eps) * (1 - t) * S / K). { apply Rdiv_lt_0_compat; [|lra]. apply Rmult_lt_0_compat; [apply Rmult_lt_0_compat; lra|lra]. }
    replace (K / ((1 - eps) * (1 - t) * S)) with (/ ((1 - eps) * (1 - t) * S / K)) by (field; repeat split; lra). apply Rinv_le; [exact P|].
    assert (Z : (1 - eps) / K * S <= (1 + t) * G) by (assert (t * 1 <= t * G) by (apply Rmult_le_compat_l; lra); lra).
    replace ((1 - eps) * (1 - t) * S / K) with ((1 - t) * ((1 - eps) / K * S)) by (field; lra). apply Rle_trans with ((1 - t) * ((1 + t) * G)); [apply Rmult_le_compat_l; lra|].
    assert (0 <= t * t * G) by (apply Rmult_le_pos; [apply Rmult_le_pos; lra|lra]). lra. }
  unfold A. replace (K * K * ((1 + eps) / (1 - eps)) / (1 - t) * (E / S)) with ((1 + eps) * K * E * (K / ((1 - eps) * (1 - t) * S))) by (field; repeat split; lra). apply Rmult_le_compat_l; [|exact L]. apply Rmult_le_pos; [apply Rmult_le_pos; lra|lra].
Qed.
Lemma part_down : E / S / A - y <= g / G.
Proof.
  apply Rle_trans with (((1 - eps) / K * E - y) / G); [|apply over_mono; lra]. unfold Rdiv at 4. rewrite Rmult_minus_distr_r. assert (Gi : 0 < / G <= 1) by (split; [apply Rinv_0_lt_compat; lra|rewrite <- Rinv_1; apply Rinv_le; lra]).
  assert (y * / G <= y) by (rewrite <- (Rmult_1_r y) at 2; apply Rmult_le_compat_l; lra).
  assert (L : (1 - t) / ((1 + eps) * K * S) <= / G).
  { replace ((1 - t) / ((1 + eps) * K * S)) with (/ ((1 + eps) * K * S / (1 - t))) by (field; repeat split; lra). apply Rinv_le; [lra|]. apply (Rmult_le_reg_r (1 - t)); [lra|]. unfold Rdiv. rewrite Rmult_assoc, Rinv_l, Rmult_1_r by lra. assert (t * 1 <= t * G) by (apply Rmult_le_compat_l; lra). lra. }
  assert (E / S / A <= (1 - eps) / K * E * / G); [|lra]. unfold A. replace (E / S / (K * K * ((1 + eps) / (1 - eps)) / (1 - t))) with ((1 - eps) / K * E * ((1 - t) / ((1 + eps) * K * S))) by (field; repeat split; lra). apply Rmult_le_compat_l; [|exact L]. apply Rmult_le_pos; [|lra]. apply Rmult_le_pos; [lra|]. left. apply Rinv_0_lt_compat. lra.
Qed.
Lemma probability_bounds : E / S / (A * B) - 2 * y <= q <= A * B * (E / S) + (A * B + 1) * y.
Proof.
  pose proof up_A as A1. pose proof up_B as B1. pose proof part_up as U. pose proof part_down as L. assert (P : 0 < E / S) by (apply Rdiv_lt_0_compat; lra).
  assert (Dp : 0 < D). { eapply Rlt_le_trans; [|exact D1]. apply Rmult_lt_0_compat; [apply Rmult_lt_0_compat; lra|lra]. } assert (Rp : 0 <= g / D) by (apply Rmult_le_pos; [lra|left; now apply Rinv_0_lt_compat]). assert (Gp : 0 <= g / G) by (apply Rmult_le_pos; [lra|left; apply Rinv_0_lt_compat; lra]).
  assert (U1 : (1 + u) * (g / D) <= B * (g / G)).
  { apply Rle_trans with ((1 + u) * (g / (G * w * (1 - u)))); [apply Rmult_le_compat_l; [lra|]; apply over_anti; [lra| |exact D1]; apply Rmult_lt_0_compat; [apply Rmult_lt_0_compat; lra|lra]|]. right. unfold B. field. repeat split; lra. }
  assert (L1 : g / G / B <= (1 - u) * (g / D)).
  { apply Rle_trans with ((1 - u) * (g / (G * w' * (1 + u)))); [|apply Rmult_le_compat_l; [lra|]; apply over_anti; [lra|exact Dp|exact D2]]. 
    replace (g / G / B) with ((1 - u) / (1 + u) * (g / G) * w) by (unfold B; field; repeat split; lra). replace ((1 - u) * (g / (G * w' * (1 + u)))) with ((1 - u) / (1 + u) * (g / G) * / w') by (field; repeat split; lra). apply Rmult_le_compat_l.
    - apply Rmult_le_pos; [|exact Gp]. apply Rmult_le_pos; [lra|]. left. apply Rinv_0_lt_compat. lra.
    - apply (Rmult_le_reg_r w'); [lra|]. rewrite Rinv_l by lra. exact Ww. }
  assert (UB : B * (g / G) <= B * (A * (E / S) + y)) by (apply Rmult_le_compat_l; lra). assert (BA : B * y <= A * B * y). { apply Rmult_le_compat_r; [exact y0|]. rewrite <- (Rmult_1_l B) at 1. apply Rmult_le_compat_r; lra. }
  assert (LB : (E / S / A - y) / B <= g / G / B) by (apply over_mono; lra). assert (YB : y / B <= y). { apply Rle_trans with (y / 1); [apply over_anti; lra|lra]. }
  replace ((E / S / A - y) / B) with (E / S / (A * B) - y / B) in LB by (field; repeat split; lra). apply Rabs_le_inv in Q. split; lra.
Qed.
End Bounds.

(** ** One list of scores *)
Lemma total_le : forall {X} (f g : X -> R) a b l, (forall x, In x l -> f x <= a * g x + b) -> total f l <= a * total g l + INR (length l) * b.
Proof. intros X f g a b l. unfold total. induction l as [|x l IH]; intros H; [cbn; lra|]. cbn [fold_right length]. rewrite S_INR. pose proof (H x (or_introl eq_refl)). specialize (IH (fun z Hz => H z (or_intror Hz))). lra. Qed.
Lemma total_ge : forall {X} (f g : X -> R) a b l, (forall x, In x l -> a * g x - b <= f x) -> a * total g l - INR (length l) * b <= total f l.
Proof. intros X f g a b l. unfold total. induction l as [|x l IH]; intros H; [cbn; lra|]. cbn [fold_right length]. rewrite S_INR. pose proof (H x (or_introl eq_refl)). specialize (IH (fun z Hz => H z (or_intror Hz))). lra. Qed.
Lemma total_member : forall {X} (f : X -> R) l x, (forall z, In z l -> 0 <= f z) -> In x l -> f x <= total f l.
Proof.
  intros X f l x. unfold total. induction l as [|z l IH]; intros H I; [destruct I|]. cbn [fold_right]. assert (P : 0 <= fold_right (fun z s => f z + s) 0 l). { clear - H. assert (H' : forall x, In x l -> 0 <= f x) by (intros x Hx; apply H; now right). clear H. induction l as [|y l IH]; [cbn; lra|]. cbn [fold_right]. pose proof (H' y (or_introl eq_refl)). specialize (IH (fun x Hx => H' x (or_intror Hx))). lra. }
  destruct I as [->|I]; [lra|]. pose proof (H z (or_introl eq_refl)). specialize (IH (fun y Hy => H y (or_intror Hy)) I). lra.
Qed.
Section Scores.
Context (e : F -> F) (E : exponential_like e) (eps : R) (He : 0 <= eps < 1) (Ac : accurate_exp e eps).
Context (l : list F) (X : R) (NL : forall v, In v l -> is_number v /\ Rabs (number v) <= X) (Ne : l <> []) (XB : in_bounds (4 * X)).
Notation part := (fun v => e (fsub v (top_of l))).
Let K : R := exp (unit_error * (2 * X) + tiny).
Let ex (v : F) : R := exp (number v - number (top_of l)).
Lemma workable_scores : workable l.
Proof.
  split; [|destruct l as [|v k]; [contradiction|]; exists v; split; [now left|]; apply NL; now left]. intros v Hv. destruct (NL v Hv) as [N _]. split; [now apply number_not_NaN|]. intros ->. discriminate N.
Qed.
Lemma part_near : forall v, In v l -> (1 - eps) / K * ex v - tiny <= number (part v) <= (1 + eps) * K * ex v + tiny.
Proof.
  intros v Hv. pose proof workable_scores as W. destruct (top_is l W) as (It & Nt & Lt). destruct (NL v Hv) as [Nv Bv]. destruct (NL _ It) as [_ Bt]. destruct (take_away v (top_of l) (number_not_NaN _ Nv) ltac:(intros ->; discriminate Nv) Nt (Lt v Hv)) as (A1 & A2 & A3). rewrite (rest_number _ _ Nv) in A2.
  set (T := number (top_of l)) in *. set (z := fsub v (top_of l)) in *. pose proof max_pos as P. pose proof tiny_pos as Y0. pose proof FloatNet_Props.tiny_small as Y. pose proof FloatNet_Props.unit_value as U. assert (U0 : 0 < unit_error) by (rewrite U; lra).
  pose proof (rounded_error (number v - T)) as R1. pose proof (Lt v Hv) as Lv. rewrite (order_number _ Nv) in Lv. apply Rabs_le_inv in Bv. apply Rabs_le_inv in Bt. assert (Sz : Rabs (number v - T) <= 2 * X) by (apply Rabs_le; lra).
  assert (R2 : Rabs (rnd (number v - T) - (number v - T)) <= unit_error * (2 * X) + tiny) by (assert (unit_error * Rabs (number v - T) <= unit_error * (2 * X)) by (apply Rmult_le_compat_l; lra); lra).
  assert (Room : - max32 < rnd (number v - T)). { unfold in_bounds in XB. assert (M : max32 = 2 ^ 128) by (change max32 with (bpow radix2 128); symmetry; rewrite pow_IZR; reflexivity). apply Rabs_le_inv in R2. apply Rabs_le_inv in Sz. assert (unit_error * (2 * X) <= / 2 * (2 * X)) by (apply Rmult_le_compat_r; [lra|rewrite U; lra]). assert (1024 <= 2 ^ 128) by (apply Rle_trans with (2 ^ 10); [lra|apply Rle_pow; [lra|lia]]). rewrite M. set (q := 2 ^ 128) in *. clearbody q. lra. }
  rewrite Rmax_left in A2 by lra. assert (Nz : is_number z). { destruct (infinite_or_number _ A1) as [Q|[Q|Q]]; [exact Q| |]; rewrite Q in A2, A3; [change (order plus_infinity) with max32 in A3|change (order minus_infinity) with (- max32) in A2]; lra. }
  rewrite (order_number _ Nz) in A2. set (h := unit_error * (2 * X) + tiny) in *. assert (E1 : ex v / K <= exp (number z) <= ex v * K).
  { unfold ex, K. fold h T. rewrite A2. apply Rabs_le_inv in R2. unfold Rdiv. rewrite <- exp_Ropp, <- !exp_plus. assert (Mono : forall a b, a <= b -> exp a <= exp b) by (intros a b [L|L]; [left; now apply exp_increasing|rewrite L; lra]). split; apply Mono; lra. }
  destruct (part_fraction e E l W v Hv) as [Np Bp]. cbv beta in Np, Bp. fold z in Np, Bp |- *. destruct (Ac z Nz) as [(_ & _ & C)|[C _]]; [|rewrite C in Np; discriminate Np]. pose proof (exp_pos (number v - T)) as Ep. fold T in Ep. change (exp (number v - T)) with (ex v) in Ep.
  assert (K0 : 0 < K) by apply exp_pos. apply Rabs_le_inv in C. replace ((1 - eps) / K * ex v) with ((1 - eps) * (ex v / K)) by (field; lra). replace ((1 + eps) * K * ex v) with ((1 + eps) * (ex v * K)) by ring.
  assert ((1 - eps) * (ex v / K) <= (1 - eps) * exp (number z)) by (apply Rmult_le_compat_l; lra). assert ((1 + eps) * exp (number z) <= (1 + eps) * (ex v * K)) by (apply Rmult_le_compat_l; lra). lra.
Qed.
Lemma sum_shift : Scaling_Spec.sum (map exp (map number l)) = exp (number (top_of l)) * total ex l.
Proof. unfold total, ex. clear. set (T := number (top_of l)). clearbody T. induction l as [|v k IH]; [cbn; ring|]. cbn [map fold_right]. change (Scaling_Spec.sum (exp (number v) :: map exp (map number k))) with (exp (number v) + Scaling_Spec.sum (map exp (map number k))). rewrite IH. unfold Rminus. rewrite exp_plus, exp_Ropp. field. pose proof (exp_pos T). lra. Qed.
Lemma probability_near : forall v, In v l -> INR (length l) * tiny < 1 -> let p := exp (number v) / Scaling_Spec.sum (map exp (map number l)) in let o := softmax_factor (length l) eps X in
  p / o - 2 * tiny <= number (fdiv (part v) (denominator e l)) <= o * p + (o + 1) * tiny.
Proof.
  intros v Hv Hn. pose proof workable_scores as W. destruct (probability_is e E l W v Hv) as (_ & Vq & _). cbv beta in Vq. destruct (denominator_is e E l W) as (_ & D1 & s & h & Vd & Hh & S1 & T1 & T2). cbv beta in T1, T2.
  pose proof unit_pos as U0. pose proof unit_small as U1. pose proof unit64_pos as V0. pose proof unit64_small as V1. pose proof tiny_pos as Y0. set (n := length l) in *.
  assert (X0 : 0 <= X). { destruct (NL v Hv) as [_ B]. pose proof (Rabs_pos (number v)). lra. }
  assert (W0 : 0 < (1 - double_error) ^ n <= 1). { split; [apply pow_lt; lra|]. apply Rle_trans with (1 ^ n); [apply pow_incr; lra|rewrite pow1; lra]. }
  assert (W1 : 0 < (1 + double_error) ^ n) by (apply pow_lt; lra). assert (W2 : (1 - double_error) ^ n * (1 + double_error) ^ n <= 1). { rewrite <- Rpow_mult_distr. assert (0 <= double_error * double_error) by (apply Rmult_le_pos; lra). assert (double_error * double_error <= 1 * double_error) by (apply Rmult_le_compat_r; lra). apply Rle_trans with (1 ^ n); [apply pow_incr; split; lra|rewrite pow1; lra]. }
  cbv zeta. rewrite sum_shift. replace (exp (number v) / (exp (number (top_of l)) * total ex l)) with (ex v / total ex l).
  2:{ assert (0 < total ex l). { eapply Rlt_le_trans; [apply (exp_pos (number v - number (top_of l)))|]. apply (total_member ex l v); [intros z _; left; apply exp_pos|exact Hv]. } set (tt := total ex l) in *. clearbody tt. unfold ex, Rminus. rewrite exp_plus, exp_Ropp. pose proof (exp_pos (number (top_of l))). field. split; lra. }
  assert (O : softmax_factor n eps X = K * K * ((1 + eps) / (1 - eps)) / (1 - INR n * tiny) * ((1 + unit_error) / (1 - unit_error) / (1 - double_error) ^ n)). { unfold softmax_factor. f_equal. f_equal. f_equal. unfold K. rewrite <- exp_plus. f_equal. ring. }
  rewrite O. eapply (probability_bounds (ex v) (total ex l) (number (part v)) (total (fun v => number (part v)) l) (number (denominator e l))  _ K eps unit_error (INR n * tiny) ((1 - double_error) ^ n) ((1 + double_error) ^ n) tiny).
  - apply exp_pos.
  - eapply Rlt_le_trans; [apply (exp_pos (number v - number (top_of l)))|]. apply (total_member ex l v); [intros z _; left; apply exp_pos|exact Hv].
  - rewrite <- (part_top e E l W). apply (total_member (fun v => number (part v)) l (top_of l)); [|apply (top_is l W)]. intros z Hz. apply (part_fraction e E l W z Hz).
  - apply (part_fraction e E l W v Hv).
  - unfold K. rewrite <- exp_0 at 1. assert (0 <= unit_error * (2 * X) + tiny) as [L|L] by (assert (0 <= unit_error * (2 * X)) by (apply Rmult_le_pos; lra); lra); [left; now apply exp_increasing|rewrite <- L; lra].
  - exact He.
  - lra.
  - split; [apply Rmult_le_pos; [apply pos_INR|lra]|exact Hn].
  - exact W0.
  - exact W1.
  - exact W2.
  - lra.
  - apply part_near, Hv.
  - apply part_near, Hv.
  - apply (total_ge (fun v => number (part v)) ex). intros x Hx. apply part_near, Hx.
  - apply (total_le (fun v => number (part v)) ex). intros x Hx. apply part_near, Hx.
  - rewrite Vd. apply Rabs_le_inv in Hh. apply Rle_trans with (s * (1 - unit_error)); [apply Rmult_le_compat_r; lra|apply Rmult_le_compat_l; lra].
  - rewrite Vd. apply Rabs_le_inv in Hh. apply Rle_trans with (s * (1 + unit_error)); [apply Rmult_le_compat_l; lra|apply Rmult_le_compat_r; lra].
  - rewrite Vq. pose proof (rounded_error (number (part v) / number (denominator e l))) as R1. cbv beta in R1. rewrite (Rabs_pos_eq (number (e (fsub v (top_of l))) / number (denominator e l))) in R1; [exact R1|]. apply Rmult_le_pos; [apply (part_fraction e E l W v Hv)|]. left. apply Rinv_0_lt_compat. lra.
Qed.
End Scores.

(** ** Tensors *)
Lemma elements_ext : forall {A} n m K (f g : nat -> nat -> nat -> A), (forall r c k, (r < n)%nat -> (c < m)%nat -> (k < K)%nat -> f r c k = g r c k) -> Reduce_Spec.elements n m K f = Reduce_Spec.elements n m K g.
Proof.
  intros A n m K f g H. unfold Reduce_Spec.elements. f_equal. apply map_ext_in. intros k Hk. f_equal. apply map_ext_in. intros r Hr. apply map_ext_in. intros c Hc. apply in_seq in Hk, Hr, Hc. apply H; lia.
Qed.
Lemma sum_total : forall l, Scaling_Spec.sum (map exp l) = total exp l.
Proof. unfold total. induction l as [|x l IH]; [reflexivity|]. cbn [map fold_right]. rewrite <- IH. reflexivity. Qed.
Lemma factor_up : forall n eps x, 0 <= eps < 1 -> 0 <= x -> INR n * tiny < 1 -> 1 <= softmax_factor n eps x.
Proof.
  intros n eps x He Hx Hn. pose proof unit_pos as U0. pose proof unit_small as U1. pose proof unit64_pos as V0. pose proof unit64_small as V1. pose proof tiny_pos as Y0.
  assert (W0 : 0 < (1 - double_error) ^ n <= 1). { split; [apply pow_lt; lra|]. apply Rle_trans with (1 ^ n); [apply pow_incr; lra|rewrite pow1; lra]. }
  set (K := exp (unit_error * (2 * x) + tiny)). assert (O : softmax_factor n eps x = K * K * ((1 + eps) / (1 - eps)) / (1 - INR n * tiny) * ((1 + unit_error) / (1 - unit_error) / (1 - double_error) ^ n)). { unfold softmax_factor. f_equal. f_equal. f_equal. unfold K. rewrite <- exp_plus. f_equal. ring. }
  assert (K1 : 1 <= K). { unfold K. rewrite <- exp_0 at 1. assert (0 <= unit_error * (2 * x) + tiny) as [L|L] by (assert (0 <= unit_error * (2 * x)) by (apply Rmult_le_pos; lra); lra); [left; now apply exp_increasing|rewrite <- L; lra]. }
  assert (N0 : 0 <= INR n * tiny) by (apply Rmult_le_pos; [apply pos_INR|lra]).
  rewrite O. rewrite <- (Rmult_1_l 1) at 1. apply Rmult_le_compat; [lra|lra| |].
  - now apply (up_A K eps (INR n * tiny)).
  - apply (up_B unit_error ((1 - double_error) ^ n)); [lra|exact W0].
Qed.
Lemma softmax_faithful : forall lib n eps, 0 <= eps < 1 -> exponential_like (expf lib) -> accurate_exp (expf lib) eps -> INR n * tiny < 1 ->
  forall t r c k f x, numbers t r c k f -> (0 < n)%nat -> (r * c * k)%nat = n -> (forall i j l, (i < r)%nat -> (j < c)%nat -> (l < k)%nat -> Rabs (f i j l) <= x) -> in_bounds (4 * x) ->
  exists y h, float_softmax lib t = Ok y /\ numbers y r c k h /\ forall i j l, (i < r)%nat -> (j < c)%nat -> (l < k)%nat ->
    let p := exp (f i j l) / Scaling_Spec.sum (map exp (Reduce_Spec.elements r c k f)) in let o := softmax_factor n eps x in
    0 < p <= 1 /\ p / o - 2 * tiny <= h i j l <= o * p + (o + 1) * tiny.
Proof.
  intros lib n eps He El Ac Hn t r c k f x Nt N0 En Bt XB. destruct (numbers_tensor _ _ _ _ _ Nt) as [Tt Q]. set (g := element t) in *. destruct (float_softmax_is lib t r c k g Tt) as (y & Ey & Ty). set (l := Reduce_Spec.elements r c k g) in *.
  exists y, (fun i j l' => number (fdiv (expf lib (fsub (g i j l') (top_of l))) (denominator (expf lib) l))). split; [exact Ey|].
  assert (NL : forall v, In v l -> is_number v /\ Rabs (number v) <= x). { intros v Hv. apply Reduce_Proofs.elements_in in Hv as (i & j & q & Hi & Hj & Hq & <-). destruct (Q i j q Hi Hj Hq) as [Q1 Q2]. split; [exact Q1|]. rewrite Q2. now apply Bt. }
  assert (Le : length l = n) by (unfold l; rewrite Reduce_Proofs.elements_length; exact En). assert (Ne : l <> []) by (intros Z; rewrite Z in Le; cbn in Le; lia). pose proof (workable_scores l x NL Ne) as W.
  assert (I : forall i j q, (i < r)%nat -> (j < c)%nat -> (q < k)%nat -> In (g i j q) l) by (intros i j q Hi Hj Hq; apply Reduce_Proofs.elements_in; exists i, j, q; auto).
  assert (Ef : map number l = Reduce_Spec.elements r c k f). { unfold l. rewrite <- float_elements_map. apply elements_ext. intros i j q Hi Hj Hq. now apply Q. }
  split.
  - destruct Ty as (R1 & R2 & R3 & G). split; [exact R1|]. split; [exact R2|]. split; [exact R3|]. intros i j q Hi Hj Hq. eexists. split; [now apply G|]. split; [apply (probability_is (expf lib) El l W), I; assumption|reflexivity].
  - intros i j q Hi Hj Hq. cbv zeta. pose proof (probability_near (expf lib) El eps He Ac l x NL Ne XB (g i j q) (I i j q Hi Hj Hq)) as P. rewrite Le in P. specialize (P Hn). cbv zeta in P. rewrite Ef in P. destruct (Q i j q Hi Hj Hq) as [_ Q2]. rewrite Q2 in P. split; [|exact P].
    assert (M : exp (f i j q) <= Scaling_Spec.sum (map exp (Reduce_Spec.elements r c k f))). { rewrite sum_total. apply (total_member exp); [intros z _; left; apply exp_pos|]. apply Reduce_Proofs.elements_in. exists i, j, q. auto. }
    pose proof (exp_pos (f i j q)) as Ep. split; [apply Rdiv_lt_0_compat; lra|]. apply (Rmult_le_reg_r (Scaling_Spec.sum (map exp (Reduce_Spec.elements r c k f)))); [lra|]. unfold Rdiv. rewrite Rmult_assoc, Rinv_l by lra. lra.
Qed.
Lemma faithful_softmax_is : forall lib n eps, 0 <= eps < 1 -> exponential_like (expf lib) -> accurate_exp (expf lib) eps -> INR n * tiny < 1 ->
  faithful_softmax lib n (fun x => softmax_factor n eps x - 1 + (softmax_factor n eps x + 1) * tiny).
Proof.
  intros lib n eps He El Ac Hn t r c k f x Nt N0 En Bt XB. destruct (softmax_faithful lib n eps He El Ac Hn t r c k f x Nt N0 En Bt XB) as (y & h & Ey & Ny & H). exists y, h. split; [exact Ey|]. split; [exact Ny|]. intros i j l Hi Hj Hl. destruct (H i j l Hi Hj Hl) as [P1 P2].
  assert (X0 : 0 <= x) by (eapply Rle_trans; [apply Rabs_pos|apply (Bt i j l Hi Hj Hl)]). pose proof (factor_up n eps x He X0 Hn) as O1. set (o := softmax_factor n eps x) in *. set (p := exp (f i j l) / _) in *. clearbody o p. pose proof tiny_pos as Y0.
  assert (D : p - p / o <= o - 1). { replace (p - p / o) with ((o - 1) * (p / o)) by (field; lra). rewrite <- (Rmult_1_r (o - 1)) at 2. apply Rmult_le_compat_l; [lra|]. apply (Rmult_le_reg_r o); [lra|]. unfold Rdiv. rewrite Rmult_assoc, Rinv_l by lra. lra. }
  assert (D2 : o * p - p <= o - 1). { replace (o * p - p) with ((o - 1) * p) by ring. rewrite <- (Rmult_1_r (o - 1)) at 2. apply Rmult_le_compat_l; lra. }
  assert (0 <= (o - 1) * tiny) by (apply Rmult_le_pos; lra). apply Rabs_le. lra.
Qed.

(** ** Scores that are near each other have probabilities that are *)
Lemma softmax_stable : forall r c k (f h : nat -> nat -> nat -> R) d, 0 <= d -> (forall i j l, (i < r)%nat -> (j < c)%nat -> (l < k)%nat -> Rabs (h i j l - f i j l) <= d) ->
  forall i j l, (i < r)%nat -> (j < c)%nat -> (l < k)%nat ->
  let p := exp (f i j l) / Scaling_Spec.sum (map exp (Reduce_Spec.elements r c k f)) in let q := exp (h i j l) / Scaling_Spec.sum (map exp (Reduce_Spec.elements r c k h)) in
  0 < p <= 1 /\ p / exp (2 * d) <= q <= exp (2 * d) * p /\ Rabs (q - p) <= exp (2 * d) - 1.
Proof.
  intros r c k f h d D0 H i j l Hi Hj Hl. cbv zeta. set (L := Reduce_Spec.elements r c k (fun i j l => (i, j, l))). assert (Mono : forall a b, a <= b -> exp a <= exp b) by (intros a b [Q|Q]; [left; now apply exp_increasing|rewrite Q; lra]).
  assert (Es : forall g : nat -> nat -> nat -> R, Scaling_Spec.sum (map exp (Reduce_Spec.elements r c k g)) = total (fun ijl => exp (g (fst (fst ijl)) (snd (fst ijl)) (snd ijl))) L).
  { intros g. rewrite sum_total. pose proof (float_elements_map r c k (fun i j l => (i, j, l)) (fun ijl : nat * nat * nat => g (fst (fst ijl)) (snd (fst ijl)) (snd ijl))) as Q. cbn [fst snd] in Q. change (Reduce_Spec.elements r c k g) with (Reduce_Spec.elements r c k (fun i j l => g i j l)). rewrite Q. fold L. unfold total. clearbody L. induction L as [|z L IH]; [reflexivity|]. cbn [map fold_right]. now rewrite IH. }
  rewrite !Es. set (sf := total _ L). set (sh := total (fun ijl => exp (h _ _ _)) L). assert (I : In (i, j, l) L) by (apply Reduce_Proofs.elements_in; exists i, j, l; auto).
  assert (R0 : forall z, In z L -> Rabs (h (fst (fst z)) (snd (fst z)) (snd z) - f (fst (fst z)) (snd (fst z)) (snd z)) <= d) by (intros z Hz; apply Reduce_Proofs.elements_in in Hz as (a & b & q & Ha & Hb & Hq & <-); now apply H).
  assert (U : sh <= exp d * sf). { unfold sh, sf. pose proof (total_le (fun z => exp (h (fst (fst z)) (snd (fst z)) (snd z))) (fun z => exp (f (fst (fst z)) (snd (fst z)) (snd z))) (exp d) 0 L) as T1. rewrite Rmult_0_r, Rplus_0_r in T1. apply T1. intros z Hz. specialize (R0 z Hz). apply Rabs_le_inv in R0. rewrite Rplus_0_r, <- exp_plus. apply Mono. lra. }
  assert (V : sf <= exp d * sh). { unfold sh, sf. pose proof (total_le (fun z => exp (f (fst (fst z)) (snd (fst z)) (snd z))) (fun z => exp (h (fst (fst z)) (snd (fst z)) (snd z))) (exp d) 0 L) as T1. rewrite Rmult_0_r, Rplus_0_r in T1. apply T1. intros z Hz. specialize (R0 z Hz). apply Rabs_le_inv in R0. rewrite Rplus_0_r, <- exp_plus. apply Mono. lra. }
  assert (Mf : exp (f i j l) <= sf) by (apply (total_member (fun z => exp (f (fst (fst z)) (snd (fst z)) (snd z))) L (i, j, l)); [intros z _; left; apply exp_pos|exact I]).
  assert (Mh : exp (h i j l) <= sh) by (apply (total_member (fun z => exp (h (fst (fst z)) (snd (fst z)) (snd z))) L (i, j, l)); [intros z _; left; apply exp_pos|exact I]).
  specialize (H i j l Hi Hj Hl). apply Rabs_le_inv in H. pose proof (exp_pos (f i j l)) as Pf. pose proof (exp_pos (h i j l)) as Ph. assert (Ef : exp (f i j l) <= exp d * exp (h i j l)) by (rewrite <- exp_plus; apply Mono; lra). assert (Eh : exp (h i j l) <= exp d * exp (f i j l)) by (rewrite <- exp_plus; apply Mono; lra).
  assert (E2 : exp (2 * d) = exp d * exp d) by (rewrite <- exp_plus; f_equal; ring). assert (K1 : 1 <= exp d) by (rewrite <- exp_0 at 1; now apply Mono). rewrite E2. set (K := exp d) in *. set (a := exp (f i j l)) in *. set (b := exp (h i j l)) in *. clearbody sf sh K a b. clear - U V Mf Mh Pf Ph Ef Eh K1.
  assert (P1 : 0 < a / sf <= 1). { split; [apply Rdiv_lt_0_compat; lra|]. apply (Rmult_le_reg_r sf); [lra|]. unfold Rdiv. rewrite Rmult_assoc, Rinv_l by lra. lra. }
  assert (K2 : 1 <= K * K) by (rewrite <- (Rmult_1_l 1) at 1; apply Rmult_le_compat; lra).
  assert (L1 : b / sh <= K * K * (a / sf)). { apply Rle_trans with (K * a / sh); [apply over_mono; lra|]. apply Rle_trans with (K * a / (sf / K)); [|right; field; lra]. apply over_anti; [apply Rmult_le_pos; lra|apply Rdiv_lt_0_compat; lra|]. apply (Rmult_le_reg_r K); [lra|]. unfold Rdiv. rewrite Rmult_assoc, Rinv_l by lra. lra. }
  assert (L2 : a / sf / (K * K) <= b / sh). { apply Rle_trans with (a / K / sh); [|apply over_mono; [lra|]; apply (Rmult_le_reg_r K); [lra|]; unfold Rdiv; rewrite Rmult_assoc, Rinv_l by lra; lra]. replace (a / sf / (K * K)) with (a / K / (K * sf)) by (field; lra). apply over_anti; [apply Rmult_le_pos; [lra|left; apply Rinv_0_lt_compat; lra]|lra|exact U]. }
  split; [exact P1|]. split; [split; assumption|]. set (p := a / sf) in *. set (q := b / sh) in *. set (o := K * K) in *. clearbody p q o. clear - P1 K2 L1 L2. 
  assert (D : p - p / o <= o - 1). { replace (p - p / o) with ((o - 1) * (p / o)) by (field; lra). rewrite <- (Rmult_1_r (o - 1)) at 2. apply Rmult_le_compat_l; [lra|]. apply (Rmult_le_reg_r o); [lra|]. unfold Rdiv. rewrite Rmult_assoc, Rinv_l by lra. lra. }
  assert (D2 : o * p - p <= o - 1). { replace (o * p - p) with ((o - 1) * p) by ring. rewrite <- (Rmult_1_r (o - 1)) at 2. apply Rmult_le_compat_l; lra. }
  apply Rabs_le. lra.
Qed.
