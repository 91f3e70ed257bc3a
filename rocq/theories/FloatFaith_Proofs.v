(** Proofs about how near the activation functions in [float] are to their formulas. *)
From Coq Require Import List Arith Bool ZArith Reals Lia Lra.
From Flocq Require Import Core Relative Plus_error IEEE754.BinarySingleNaN IEEE754.Binary IEEE754.Bits.
From Verif Require Import Outcome Tensor_Model Tensor_Spec F32_Model F32_Proofs Activation_Model Layer_Model Net_Model Net_Spec FloatNet_Model FloatNet_Spec FloatNet_Proofs FloatSoft_Proofs FloatAct_Proofs FloatExp_Proofs FloatRun_Spec.
From Verif Require ModelFile_Model Reduce_Model Reduce_Spec FloatNet_Props.
Import ListNotations.
Local Open Scope R_scope.

Lemma faithful_each : forall lib a g (e : R -> R), (forall t, float_activate lib a t = Ok (transform g t)) ->
  (forall x m, is_number x -> Rabs (number x) <= m -> is_number (g x) /\ Rabs (number (g x) - formula a (number x)) <= e m) -> faithful lib a e.
Proof.
  intros lib a g e Ha H t r c k f m N B. destruct (numbers_tensor t r c k f N) as [Tn Q]. exists (transform g t), (fun i j l => number (g (element t i j l))). split; [apply Ha|]. split.
  - apply tensor_numbers with (f := fun i j l => g (element t i j l)); [now apply transform_tensor|]. intros i j l Hi Hj Hl. destruct (Q i j l Hi Hj Hl) as [N1 V1]. apply (H _ m N1). rewrite V1. now apply B.
  - intros i j l Hi Hj Hl. destruct (Q i j l Hi Hj Hl) as [N1 V1]. rewrite <- V1. apply (H _ m N1). rewrite V1. now apply B.
Qed.
Lemma faithful_linear : forall lib, faithful lib ModelFile_Model.linear (fun _ => 0).
Proof. intros lib t r c k f m N B. exists t, f. split; [reflexivity|]. split; [exact N|]. intros i j l _ _ _. cbn [formula]. rewrite Rminus_diag_eq by reflexivity. rewrite Rabs_R0. lra. Qed.
Lemma faithful_relu : forall lib, faithful lib ModelFile_Model.relu (fun _ => 0).
Proof.
  intros lib. apply (faithful_each lib _ float_relu); [reflexivity|]. intros x m N _. destruct (relu_is x (number_not_NaN x N)) as [N' O]. pose proof max_pos as P. pose proof (number_bounds x) as B.
  assert (Nr : is_number (float_relu x)). { destruct (infinite_or_number _ N') as [Q|[Q|Q]]; [exact Q| |]; rewrite Q in O; rewrite (order_number _ N) in O; [change (Reduce_Spec.order plus_infinity) with max32 in O|change (Reduce_Spec.order minus_infinity) with (- max32) in O]; revert O; unfold Rmax; destruct (Rle_dec (number x) 0); lra. }
  split; [exact Nr|]. rewrite (order_number _ N), (order_number _ Nr) in O. rewrite O. cbn [formula]. rewrite Rmax_comm, Rminus_diag_eq by reflexivity. rewrite Rabs_R0. lra.
Qed.
Lemma leak_same : number float_leak = leak.
Proof. rewrite leak_value. unfold leak. replace (bpow radix2 (-30)) with (/ 1073741824) by reflexivity. replace (2 ^ 30) with 1073741824 by ring. reflexivity. Qed.
Lemma faithful_leaky : forall lib, faithful lib ModelFile_Model.leaky (fun m => unit_error * m + tiny).
Proof.
  intros lib. apply (faithful_each lib _ float_leaky); [reflexivity|]. intros x m N B. destruct (leaky_is x N) as [Nl Vl]. split; [exact Nl|]. rewrite Vl. cbn [formula]. destruct leak_is as [_ L]. rewrite leak_same in *. pose proof (Rabs_pos (number x)) as A. pose proof FloatNet_Props.unit_value as U. pose proof tiny_pos as Y.
  destruct (Rlt_dec (number x) 0) as [C|C].
  - rewrite Rmax_left by (assert (0 <= (1 - leak) * - number x) by (apply Rmult_le_pos; lra); lra). eapply Rle_trans; [apply rounded_error|]. apply Rplus_le_compat_r. apply Rmult_le_compat_l; [rewrite U; lra|]. rewrite Rabs_mult, (Rabs_pos_eq leak) by lra. eapply Rle_trans; [|exact B]. rewrite <- (Rmult_1_l (Rabs (number x))) at 2. apply Rmult_le_compat_r; lra.
  - rewrite Rmax_right by (assert (0 <= (1 - leak) * number x) by (apply Rmult_le_pos; lra); lra). rewrite Rminus_diag_eq by reflexivity. rewrite Rabs_R0. assert (0 <= unit_error * m) by (apply Rmult_le_pos; [rewrite U|]; lra). lra.
Qed.

(** ** Sigmoid *)
Lemma inverse_near : forall a b, 1 <= a -> 1 <= b -> Rabs (1 / a - 1 / b) <= Rabs (a - b) / b.
Proof.
  intros a b A B. replace (1 / a - 1 / b) with (- (a - b) / b * / a) by (field; lra). rewrite Rabs_mult. unfold Rdiv. rewrite Rabs_mult, Rabs_Ropp, (Rabs_pos_eq (/ b)) by (left; apply Rinv_0_lt_compat; lra). rewrite (Rabs_pos_eq (/ a)) by (left; apply Rinv_0_lt_compat; lra).
  rewrite <- (Rmult_1_r (Rabs (a - b) * / b)) at 2. apply Rmult_le_compat_l; [apply Rmult_le_pos; [apply Rabs_pos|left; apply Rinv_0_lt_compat; lra]|]. replace 1 with (/ 1) by field. apply Rinv_le; lra.
Qed.
Lemma part_le : forall a b c, 0 < b -> a <= c * b -> a / b <= c.
Proof. intros a b c B H. apply (Rmult_le_reg_r b); [exact B|]. unfold Rdiv. rewrite Rmult_assoc, Rinv_l by lra. lra. Qed.
Lemma sigmoid_near : forall lib eps, 0 <= eps <= 1 -> accurate_exp (expf lib) eps -> forall x, is_number x ->
  is_number (float_sigmoid lib x) /\ Rabs (number (float_sigmoid lib x) - formula ModelFile_Model.sigmoid (number x)) <= eps + 3 * unit_error.
Proof.
  intros lib eps He Ac x N. pose proof max_pos as P. pose proof FloatNet_Props.unit_value as U. pose proof FloatNet_Props.tiny_small as Y. pose proof tiny_pos as Y0.
  assert (Y3 : 3 * tiny <= unit_error). { Transparent tiny unit_error. unfold tiny, unit_error. Opaque tiny unit_error. replace (2 ^ 150) with (2 ^ 24 * 2 ^ 126) by (rewrite <- pow_add; reflexivity). rewrite Rinv_mult by (apply pow_nonzero; lra). assert (4 <= 2 ^ 126) by (apply Rle_trans with (2 ^ 2); [lra|apply Rle_pow; [lra|lia]]). assert (/ 2 ^ 126 <= / 4) by (apply Rinv_le; lra). assert (0 < / 2 ^ 24) by (apply Rinv_0_lt_compat, pow_lt; lra). assert (/ 2 ^ 24 * / 2 ^ 126 <= / 2 ^ 24 * / 4) by (apply Rmult_le_compat_l; lra). lra. }
  destruct (minus_is x (number_not_NaN x N)) as [Nm Om]. set (z := fmul (of_Z (-1)) x) in *. rewrite (order_number _ N) in Om. pose proof (number_bounds x) as Bx.
  assert (Nz : is_number z). { destruct (infinite_or_number _ Nm) as [Q|[Q|Q]]; [exact Q| |]; rewrite Q in Om; [change (Reduce_Spec.order plus_infinity) with max32 in Om|change (Reduce_Spec.order minus_infinity) with (- max32) in Om]; lra. }
  rewrite (order_number _ Nz) in Om. cbn [formula]. replace (exp (number x) / (exp (number x) + 1)) with (1 / (1 + exp (number z))) by (rewrite Om, exp_Ropp; pose proof (exp_pos (number x)); field; lra).
  pose proof (exp_pos (number z)) as Ep. set (E := exp (number z)) in *. change (float_sigmoid lib x) with (one_over (expf lib z)).
  assert (Big : forall b, 2 ^ 127 - 1 <= b -> b <= (1 + eps) * E + tiny -> Rabs (0 - 1 / (1 + E)) <= eps + 3 * unit_error).
  { intros b B1 B2. assert (4 <= 2 ^ 2) by lra. assert (2 ^ 40 <= 2 ^ 127) by (apply Rle_pow; [lra|lia]). assert (V40 : 2 ^ 40 = 1099511627776) by ring. assert (L : 2 ^ 39 - 1 <= E). { assert (V39 : 2 ^ 39 = 549755813888) by ring. assert (eps * E <= 1 * E) by (apply Rmult_le_compat_r; lra). rewrite U in Y. lra. } 
    assert (V39 : 2 ^ 39 = 549755813888) by ring. rewrite Rminus_0_l, Rabs_Ropp. rewrite Rabs_pos_eq by (left; apply Rdiv_lt_0_compat; lra). apply part_le; [lra|]. assert (unit_error * (1 + E) >= 1); [rewrite U; lra|]. assert (0 <= eps * (1 + E)) by (apply Rmult_le_pos; lra). lra. }
  destruct (Ac z Nz) as [(Nw & W0 & Wa)|[Ew We]].
  - fold E in Wa. set (w := number (expf lib z)) in *. destruct (one_over_is (expf lib z) (number_not_NaN _ Nw)) as [No Vo]; [rewrite (order_number _ Nw); exact W0|]. split; [exact No|]. rewrite Vo. rewrite (order_number _ Nw). fold w. pose proof (number_bounds (expf lib z)) as Bw. fold w in Bw. destruct (Rlt_dec w max32) as [_|]; [|lra].
    unfold one_over_at. pose proof (one_plus_ge w W0) as G. destruct (Rlt_dec (rnd (1 + w)) max32) as [C|C].
    + set (s := rnd (1 + w)) in *. pose proof (rounded_error (1 + w)) as E1. fold s in E1. rewrite (Rabs_pos_eq (1 + w)) in E1 by lra. pose proof (rounded_error (1 / s)) as E2. pose proof (one_over_le_1 s G) as Os. rewrite (Rabs_pos_eq (1 / s)) in E2 by lra.
      pose proof (inverse_near s (1 + w) G ltac:(lra)) as E3. pose proof (inverse_near (1 + w) (1 + E) ltac:(lra) ltac:(lra)) as E4. replace (1 + w - (1 + E)) with (w - E) in E4 by ring.
      assert (F3 : Rabs (s - (1 + w)) / (1 + w) <= unit_error + tiny). { apply part_le; [lra|]. assert (tiny <= tiny * (1 + w)) by (rewrite <- (Rmult_1_r tiny) at 1; apply Rmult_le_compat_l; lra). lra. }
      assert (F4 : Rabs (w - E) / (1 + E) <= eps + tiny). { apply part_le; [lra|]. assert (0 <= tiny * E) by (apply Rmult_le_pos; lra). lra. }
      assert (unit_error * (1 / s) <= unit_error * 1) by (apply Rmult_le_compat_l; [rewrite U|]; lra).
      replace (rnd (1 / s) - 1 / (1 + E)) with ((rnd (1 / s) - 1 / s) + (1 / s - 1 / (1 + w)) + (1 / (1 + w) - 1 / (1 + E))) by ring. eapply Rle_trans; [apply Rabs_triang|]. pose proof (Rabs_triang (rnd (1 / s) - 1 / s) (1 / s - 1 / (1 + w))). lra.
    + apply (Big w).
      * assert (~ 1 + w <= 2 ^ 127); [|lra]. intros L. apply C. apply Rle_lt_trans with (bpow radix2 127); [apply rnd_le_F; [apply F32_bpow; lia|]|apply bpow_lt; lia]. replace (bpow radix2 127) with (2 ^ 127) by (rewrite pow_IZR; reflexivity). exact L.
      * apply Rabs_le_inv in Wa. lra.
  - fold E in We. rewrite Ew. assert (O0 : one_over plus_infinity = float0) by reflexivity. rewrite O0. destruct float0_is as [N0 V0]. split; [exact N0|]. rewrite V0. apply (Big (2 ^ 127)); [lra|]. assert (0 <= eps * E) by (apply Rmult_le_pos; lra). lra.
Qed.
Lemma faithful_sigmoid : forall lib eps, 0 <= eps <= 1 -> accurate_exp (expf lib) eps -> faithful lib ModelFile_Model.sigmoid (fun _ => eps + 3 * unit_error).
Proof. intros lib eps He Ac. apply (faithful_each lib _ (float_sigmoid lib)); [reflexivity|]. intros x m N _. now apply sigmoid_near. Qed.
Lemma rounded_exp_accurate : accurate_exp rounded_exp unit_error.
Proof.
  intros x N. rewrite (rounded_exp_is x N). pose proof (exp_pos (number x)) as Ep. set (E := exp (number x)) in *. destruct (nearest_is E ltac:(lra)) as (A & B & _). pose proof (rnd_ge0 E ltac:(lra)) as G. pose proof max_pos as P. destruct (Rlt_dec (rnd E) max32) as [C|C].
  - left. rewrite Rmin_left in B by lra. assert (Nn : is_number (nearest E)). { destruct (infinite_or_number _ A) as [Q|[Q|Q]]; [exact Q| |]; rewrite Q in B; [change (Reduce_Spec.order plus_infinity) with max32 in B|change (Reduce_Spec.order minus_infinity) with (- max32) in B]; lra. }
    rewrite (order_number _ Nn) in B. split; [exact Nn|]. rewrite B. split; [exact G|]. pose proof (rounded_error E) as R1. rewrite (Rabs_pos_eq E) in R1 by lra. exact R1.
  - right. rewrite Rmin_right in B by lra. split.
    + destruct (infinite_or_number _ A) as [Q|[Q|Q]]; [|exact Q|]; [rewrite (order_number _ Q) in B; pose proof (number_bounds (nearest E)); lra|]. rewrite Q in B. change (Reduce_Spec.order minus_infinity) with (- max32) in B. lra.
    + assert (~ E < 2 ^ 127); [|lra]. intros L. apply C. apply Rle_lt_trans with (bpow radix2 127); [apply rnd_le_F; [apply F32_bpow; lia|]|apply bpow_lt; lia]. replace (bpow radix2 127) with (2 ^ 127) by (rewrite pow_IZR; reflexivity). lra.
Qed.

(** ** The approximation of sigmoid *)
Lemma top_room : forall x, is_number x -> rnd (1 + Rabs (number x)) < max32.
Proof.
  intros x N. pose proof (abs_B2R_le_emax_minus_prec 24 128 prec_ok x) as B. change (B2R 24 128 x) with (number x) in B. set (M := bpow radix2 128 - bpow radix2 (128 - 24)) in *.
  assert (FM : F32 M). { unfold M. apply generic_format_FLT. exists (Float radix2 (2 ^ 24 - 1) 104); [|cbn; lia|cbn; lia]. unfold F2R. cbn [Fnum Fexp]. change (128 - 24)%Z with 104%Z. rewrite minus_IZR. change (IZR (2 ^ 24)) with (bpow radix2 24). rewrite Rmult_minus_distr_r, <- bpow_plus. change (24 + 104)%Z with 128%Z. ring. }
  assert (Rabs (rnd (1 + M) - (1 + M)) <= Rabs (M - (1 + M))). { destruct (round_N_pt radix2 (FLT_exp (3 - 128 - 24) 24) (fun x => negb (Z.even x)) (1 + M)) as [_ Q]. now apply Q. }
  assert (rnd (1 + Rabs (number x)) <= rnd (1 + M)) by (apply rnd_le; lra). replace (M - (1 + M)) with (-(1)) in H by ring. rewrite Rabs_Ropp, Rabs_R1 in H. apply Rabs_le_inv in H.
  assert (bpow radix2 2 < bpow radix2 (128 - 24)) by (apply bpow_lt; lia). change (bpow radix2 2) with 4 in H1. unfold M in *. change max32 with (bpow radix2 128). lra.
Qed.
Lemma faithful_sigmoid_approx : forall lib, faithful lib ModelFile_Model.sigmoidApprox (fun _ => 4 * unit_error).
Proof.
  intros lib. apply (faithful_each lib _ float_sigmoid_approx); [reflexivity|]. intros x m N _. split; [now apply approx_is|].
  destruct float1_is as [N1 V1]. destruct (abs_is x N) as [Na Va]. destruct half_is as [Nh Vh]. pose proof max_pos as P. assert (P2 : 2 < max32) by (change 2 with (bpow radix2 1); apply bpow_lt; lia). pose proof FloatNet_Props.unit_value as U. pose proof FloatNet_Props.tiny_small as Y. pose proof tiny_pos as Y0.
  assert (Y3 : 3 * tiny <= unit_error). { Transparent tiny unit_error. unfold tiny, unit_error. Opaque tiny unit_error. replace (2 ^ 150) with (2 ^ 24 * 2 ^ 126) by (rewrite <- pow_add; reflexivity). rewrite Rinv_mult by (apply pow_nonzero; lra). assert (4 <= 2 ^ 126) by (apply Rle_trans with (2 ^ 2); [lra|apply Rle_pow; [lra|lia]]). assert (/ 2 ^ 126 <= / 4) by (apply Rinv_le; lra). assert (0 < / 2 ^ 24) by (apply Rinv_0_lt_compat, pow_lt; lra). assert (/ 2 ^ 24 * / 2 ^ 126 <= / 2 ^ 24 * / 4) by (apply Rmult_le_compat_l; lra). lra. }
  unfold float_sigmoid_approx. set (a := Babs 24 128 unop_nan_pl32 x) in *. pose proof (Rabs_pos (number x)) as Ax. pose proof (top_room x N) as R0. pose proof (one_plus_ge _ Ax) as G.
  destruct (fadd_correct float1 a N1 Na) as [V Fi]; fold (number float1) (number a) in *; rewrite V1, Va in *; [rewrite Rabs_pos_eq by lra; exact R0|]. change (val (fadd float1 a)) with (number (fadd float1 a)) in V.
  set (s := rnd (1 + Rabs (number x))) in *. assert (L : Rabs (number x) <= s) by (apply rnd_ge_F; [rewrite <- Va; apply val_format|lra]).
  assert (R1 : -1 <= number x / s <= 1). { apply Rabs_le_inv in L. split; apply (Rmult_le_reg_r s); try lra; unfold Rdiv; rewrite Rmult_assoc, Rinv_l by lra; lra. }
  assert (R2 : -1 <= rnd (number x / s) <= 1) by (split; [apply rnd_ge_F; [apply (F32_Z (-1)); lia|lra]|apply rnd_le_F; [apply F32_1|lra]]).
  destruct (fdiv_correct x (fadd float1 a) N) as [Vd Fd]; fold (number x) (number (fadd float1 a)) in *; rewrite V in *; [lra|apply Rabs_def1; lra|]. set (q := fdiv x (fadd float1 a)) in *. change (val q) with (number q) in Vd.
  assert (R3 : 0 <= rnd (number q + 1) <= 2) by (rewrite Vd; split; [apply rnd_ge0; lra|apply rnd_le_F; [apply (F32_Z 2); lia|lra]]).
  destruct (fadd_correct q float1 Fd N1) as [Vs Fs]; fold (number q) (number float1) in *; rewrite V1 in *; [rewrite Rabs_pos_eq; lra|]. change (val (fadd q float1)) with (number (fadd q float1)) in Vs.
  assert (R4 : 0 <= rnd (/ 2 * number (fadd q float1)) <= 1) by (rewrite Vs; split; [apply rnd_ge0; lra|apply rnd_le_F; [apply F32_1|lra]]).
  destruct (fmul_correct float_half (fadd q float1) Nh Fs) as [Vr Fr]; fold (number float_half) (number (fadd q float1)) in *; rewrite Vh in *; [rewrite Rabs_pos_eq; lra|]. change (val (fmul float_half (fadd q float1))) with (number (fmul float_half (fadd q float1))) in Vr. rewrite Vr, Vs. rewrite Vs, Vd in *. cbn [formula].
  pose proof (rounded_error (1 + Rabs (number x))) as E1. fold s in E1. rewrite (Rabs_pos_eq (1 + Rabs (number x))) in E1 by lra.
  assert (D1 : Rabs (number x / s - number x / (1 + Rabs (number x))) <= unit_error + tiny).
  { replace (number x / s - number x / (1 + Rabs (number x))) with (number x * / s * ((1 + Rabs (number x) - s) / (1 + Rabs (number x)))) by (field; lra). rewrite Rabs_mult. assert (Rabs (number x * / s) <= 1) by (apply Rabs_le; exact R1).
    assert (Rabs ((1 + Rabs (number x) - s) / (1 + Rabs (number x))) <= unit_error + tiny). { unfold Rdiv. rewrite Rabs_mult, (Rabs_pos_eq (/ _)) by (left; apply Rinv_0_lt_compat; lra). rewrite Rabs_minus_sym. apply part_le; [lra|]. assert (0 <= tiny * Rabs (number x)) by (apply Rmult_le_pos; lra). lra. }
    rewrite <- (Rmult_1_l (unit_error + tiny)). apply Rmult_le_compat; auto using Rabs_pos. }
  set (w := number x / s) in *. set (t := number x / (1 + Rabs (number x))) in *. pose proof (rounded_error w) as E2. pose proof (rounded_error (rnd w + 1)) as E3. set (u := rnd (rnd w + 1)) in *. pose proof (rounded_error (/ 2 * u)) as E4.
  assert (A2 : Rabs w <= 1) by (apply Rabs_le; lra). assert (A3 : Rabs (rnd w + 1) <= 2) by (apply Rabs_le; lra). assert (A4 : Rabs (/ 2 * u) <= 1) by (apply Rabs_le; lra).
  assert (U0 : 0 < unit_error) by (rewrite U; lra). assert (unit_error * Rabs w <= unit_error * 1) by (apply Rmult_le_compat_l; lra). assert (unit_error * Rabs (rnd w + 1) <= unit_error * 2) by (apply Rmult_le_compat_l; lra). assert (unit_error * Rabs (/ 2 * u) <= unit_error * 1) by (apply Rmult_le_compat_l; lra).
  apply Rabs_le_inv in E2. apply Rabs_le_inv in E3. apply Rabs_le_inv in E4. apply Rabs_le_inv in D1. apply Rabs_le. lra.
Qed.

(** ** The hyperbolic tangent *)
Lemma faithful_tanh : forall lib eps, accurate_tanh (tanhf lib) eps -> faithful lib ModelFile_Model.tanhDefault (fun _ => eps).
Proof. intros lib eps H. apply (faithful_each lib _ (float_tanh lib)); [reflexivity|]. intros x m N _. exact (H x N). Qed.

Lemma twice_exact : forall x, is_number x -> rnd (2 * number x) = 2 * number x.
Proof.
  intros x N. apply rnd_id. pose proof (val_format x) as G. change (val x) with (number x) in G. apply FLT_format_generic in G; [|reflexivity]. destruct G as [f Hx Hm He]. apply generic_format_FLT. exists (Float radix2 (Fnum f) (Fexp f + 1)); [|exact Hm|cbn [Fexp]; lia].
  rewrite Hx. unfold F2R. cbn [Fnum Fexp]. rewrite bpow_plus. change (bpow radix2 1) with 2. ring.
Qed.
Lemma tanh_by_sigmoid : forall v, (exp v - exp (- v)) / (exp v + exp (- v)) = 2 * (exp (2 * v) / (exp (2 * v) + 1)) - 1.
Proof. intros v. replace (2 * v) with (v + v) by ring. rewrite exp_plus, exp_Ropp. pose proof (exp_pos v) as P. set (e := exp v) in *. assert (0 < e * e) by now apply Rmult_lt_0_compat. field. repeat split; lra. Qed.
Lemma sigmoid_far : forall v, 2 ^ 40 <= v -> Rabs (1 - exp v / (exp v + 1)) <= unit_error /\ Rabs (0 - exp (- v) / (exp (- v) + 1)) <= unit_error.
Proof.
  intros v H. pose proof (exp_ineq1_le v) as L. assert (V : 2 ^ 40 = 1099511627776) by ring. pose proof FloatNet_Props.unit_value as U. set (e := exp v) in *. rewrite exp_Ropp. fold e.
  replace (1 - e / (e + 1)) with (1 / (e + 1)) by (field; lra). replace (0 - / e / (/ e + 1)) with (- (1 / (e + 1))) by (field; lra). rewrite Rabs_Ropp. assert (Rabs (1 / (e + 1)) <= unit_error); [|now split].
  rewrite Rabs_pos_eq by (left; apply Rdiv_lt_0_compat; lra). apply part_le; [lra|]. rewrite U. lra.
Qed.
Lemma faithful_tanh_approx : forall lib eps, 0 <= eps <= 1 -> accurate_exp (expf lib) eps -> exp_limits (expf lib) -> faithful lib ModelFile_Model.tanhApprox (fun _ => 2 * eps + 10 * unit_error).
Proof.
  intros lib eps He Ac (Lp & Lm & Lz). apply (faithful_each lib _ (float_tanh_approx lib)); [reflexivity|]. intros x m N _. change (float_tanh_approx lib x) with (fsub (fmul (of_Z 2) (float_sigmoid lib (fmul (of_Z 2) x))) float1).
  cbn [formula]. rewrite tanh_by_sigmoid. destruct (twice_is x (number_not_NaN x N)) as [N2 O2].
  assert (O : Reduce_Spec.order (fmul (of_Z 2) x) = Rmax (Rmin (2 * number x) max32) (- max32)). { rewrite O2. destruct x; try discriminate N; rewrite ?twice_exact by exact N; reflexivity. }
  clear O2. set (d := fmul (of_Z 2) x) in *. pose proof max_pos as P. pose proof FloatNet_Props.unit_value as U. pose proof tiny_pos as Y0. pose proof FloatNet_Props.tiny_small as Y.
  assert (M : 2 ^ 40 <= max32). { change max32 with (bpow radix2 128). replace (2 ^ 40) with (bpow radix2 40) by (rewrite pow_IZR; reflexivity). apply bpow_le. lia. }
  assert (S1 : is_number (float_sigmoid lib d) /\ 0 <= number (float_sigmoid lib d) <= 1 /\ Rabs (number (float_sigmoid lib d) - exp (2 * number x) / (exp (2 * number x) + 1)) <= eps + 3 * unit_error).
  { assert (Near : is_number d -> number d = 2 * number x -> is_number (float_sigmoid lib d) /\ Rabs (number (float_sigmoid lib d) - exp (2 * number x) / (exp (2 * number x) + 1)) <= eps + 3 * unit_error).
    { intros Nd Vd. rewrite <- Vd. exact (sigmoid_near lib eps He Ac d Nd). }
    assert (Limits : number d = number d /\ (is_number d \/ d = plus_infinity \/ d = minus_infinity)) by (split; [reflexivity|now apply infinite_or_number]). destruct Limits as [_ [Nd|[Ed|Ed]]].
    - rewrite (order_number _ Nd) in O. pose proof (number_bounds d) as Bd. assert (Vd : number d = 2 * number x). { revert O. unfold Rmax, Rmin. destruct (Rle_dec (2 * number x) max32); destruct (Rle_dec _ (- max32)); lra. }
      destruct (Near Nd Vd) as [Ns Es]. split; [exact Ns|]. split; [|exact Es]. destruct (minus_is d N2) as [Nm Om]. rewrite (order_number _ Nd) in Om.
      assert (Nz : is_number (fmul (of_Z (-1)) d)). { destruct (infinite_or_number _ Nm) as [Q|[Q|Q]]; [exact Q| |]; rewrite Q in Om; [change (Reduce_Spec.order plus_infinity) with max32 in Om|change (Reduce_Spec.order minus_infinity) with (- max32) in Om]; lra. }
      change (float_sigmoid lib d) with (one_over (expf lib (fmul (of_Z (-1)) d))). destruct (Ac _ Nz) as [(Nw & W0 & _)|[Ew _]].
      + apply one_over_fraction; [now apply number_not_NaN|]. rewrite (order_number _ Nw). exact W0.
      + rewrite Ew. apply one_over_fraction; [discriminate|]. change (Reduce_Spec.order plus_infinity) with max32. lra.
    - rewrite Ed in *. change (Reduce_Spec.order plus_infinity) with max32 in O. change (float_sigmoid lib plus_infinity) with (one_over (expf lib minus_infinity)).
      assert (G : 2 ^ 40 <= 2 * number x). { revert O. unfold Rmax, Rmin. destruct (Rle_dec (2 * number x) max32); destruct (Rle_dec _ (- max32)); lra. }
      destruct (one_over_is (expf lib minus_infinity) (number_not_NaN _ Lm)) as [No Vo]; [rewrite (order_number _ Lm), Lz; lra|]. rewrite (order_number _ Lm), Lz in Vo. destruct (Rlt_dec 0 max32) as [_|]; [|lra].
      assert (V1 : number (one_over (expf lib minus_infinity)) = 1). { rewrite Vo. unfold one_over_at. rewrite Rplus_0_r, (rnd_id 1) by apply F32_1. destruct (Rlt_dec 1 max32); [|lra]. replace (1 / 1) with 1 by field. apply rnd_id, F32_1. }
      split; [exact No|]. rewrite V1. split; [lra|]. pose proof (proj1 (sigmoid_far _ G)). lra.
    - rewrite Ed in *. change (Reduce_Spec.order minus_infinity) with (- max32) in O. change (float_sigmoid lib minus_infinity) with (one_over (expf lib plus_infinity)). rewrite Lp. change (one_over plus_infinity) with float0. destruct float0_is as [N0 V0].
      assert (G : 2 ^ 40 <= - (2 * number x)). { revert O. unfold Rmax, Rmin. destruct (Rle_dec (2 * number x) max32); destruct (Rle_dec _ (- max32)); lra. }
      split; [exact N0|]. rewrite V0. split; [lra|]. pose proof (proj2 (sigmoid_far _ G)) as K. rewrite Ropp_involutive in K. lra. }
  destruct S1 as (Ns & Bs & Es). destruct (stretch_is _ Ns Bs) as (A & B & C). split; [exact A|]. rewrite B. set (s := number (float_sigmoid lib d)) in *. set (v := exp (2 * number x) / (exp (2 * number x) + 1)) in *.
  pose proof (rounded_error (2 * s)) as E1. pose proof (rounded_error (rnd (2 * s) - 1)) as E2. rewrite (Rabs_pos_eq (2 * s)) in E1 by lra. assert (B1 : 0 <= rnd (2 * s) <= 2) by (split; [apply rnd_ge0; lra|apply rnd_le_F; [apply (F32_Z 2); lia|lra]]).
  assert (A1 : Rabs (rnd (2 * s) - 1) <= 1) by (apply Rabs_le; lra). assert (U0 : 0 < unit_error) by (rewrite U; lra). assert (unit_error * (2 * s) <= unit_error * 2) by (apply Rmult_le_compat_l; lra). assert (unit_error * Rabs (rnd (2 * s) - 1) <= unit_error * 1) by (apply Rmult_le_compat_l; lra).
  assert (Y3 : 2 * tiny <= unit_error). { Transparent tiny unit_error. unfold tiny, unit_error. Opaque tiny unit_error. replace (2 ^ 150) with (2 ^ 24 * 2 ^ 126) by (rewrite <- pow_add; reflexivity). rewrite Rinv_mult by (apply pow_nonzero; lra). assert (4 <= 2 ^ 126) by (apply Rle_trans with (2 ^ 2); [lra|apply Rle_pow; [lra|lia]]). assert (/ 2 ^ 126 <= / 4) by (apply Rinv_le; lra). assert (0 < / 2 ^ 24) by (apply Rinv_0_lt_compat, pow_lt; lra). assert (/ 2 ^ 24 * / 2 ^ 126 <= / 2 ^ 24 * / 4) by (apply Rmult_le_compat_l; lra). lra. }
  apply Rabs_le_inv in E1. apply Rabs_le_inv in E2. apply Rabs_le_inv in Es. apply Rabs_le. lra.
Qed.
Lemma rounded_exp_limits : exp_limits rounded_exp.
Proof. split; [reflexivity|]. split; reflexivity. Qed.
