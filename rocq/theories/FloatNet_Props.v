(** C106: how far a dense layer, computed with [float], is from the exact one. *)
From Coq Require Import List Arith Bool ZArith Reals Lia Lra.
From Flocq Require Import Core IEEE754.BinarySingleNaN IEEE754.Binary IEEE754.Bits.
From Verif Require Import Outcome Tensor_Model Tensor_Spec F32_Model F32_Proofs Reduce_Model Activation_Model Layer_Model Net_Model FloatNet_Model FloatNet_Spec FloatNet_Proofs.
From Verif Require ModelFile_Model.
Import ListNotations.
Local Open Scope R_scope.

(** C106 *)
(** The product of two matrices of numbers, as long as nothing overflows, is a matrix of numbers, each within [sum_error] of the
    exact element. *)
Theorem float_multiply : forall a b n m p k f g, numbers a n m k f -> numbers b m p k g ->
  (forall i j l, (i < n)%nat -> (j < p)%nat -> (l < k)%nat -> let s := sizes m (fun x => f i x l) (fun x => g x j l) in in_bounds (s + sum_error m s)) ->
  exists y h, matrix_multiply fops a b = Ok y /\ numbers y n p k h /\
    forall i j l, (i < n)%nat -> (j < p)%nat -> (l < k)%nat ->
      Rabs (h i j l - Sum rops m (fun x => f i x l * g x j l)) <= sum_error m (sizes m (fun x => f i x l) (fun x => g x j l)).
Proof. exact float_multiply_is. Qed.
Print Assumptions float_multiply.

(** A dense layer: weights, then biases. *)
Theorem float_dense : forall lib v p x m q f w b,
  numbers x 1 m 1 f -> numbers (float_weights p) m q 1 w -> numbers (float_biases p) 1 q 1 b ->
  (forall j, (j < q)%nat -> let s := sizes m (fun i => f 0%nat i 0%nat) (fun i => w i j 0%nat) in in_bounds ((1 + unit_error) * (s + sum_error m s + Rabs (b 0%nat j 0%nat)))) ->
  exists y h, float_chain lib v p [Full; Bias] [x] = Ok y /\ numbers y 1 q 1 h /\
    forall j, (j < q)%nat ->
      Rabs (h 0%nat j 0%nat - (Sum rops m (fun i => f 0%nat i 0%nat * w i j 0%nat) + b 0%nat j 0%nat)) <=
      dense_error m (sizes m (fun i => f 0%nat i 0%nat) (fun i => w i j 0%nat)) (Rabs (b 0%nat j 0%nat)).
Proof.
  intros lib v p x m q f w b Hx Hw Hb B. pose proof unit_pos as U.
  assert (P : forall j, 0 <= sizes m (fun i => f 0%nat i 0%nat) (fun i => w i j 0%nat)) by (intros j; apply sizes_pos).
  destruct (float_multiply_is x (float_weights p) 1 m q 1 f w Hx Hw) as (y & h & Ey & Ny & Hy).
  { intros i j l Hi Hj Hl. replace i with 0%nat by lia. replace l with 0%nat by lia. specialize (B j Hj). cbv zeta in B. specialize (P j). pose proof (sum_error_pos m _ P) as Q. set (s := sizes m _ _) in *. set (e := sum_error m s) in *. unfold in_bounds in *. eapply Rle_lt_trans; [|exact B].
    pose proof (Rabs_pos (b 0%nat j 0%nat)) as Hb0. set (c := Rabs _) in *. clearbody s e c. assert (0 <= unit_error * (s + e + c)) by (apply Rmult_le_pos; lra). lra. }
  assert (E : forall j, (j < q)%nat -> Rabs (h 0%nat j 0%nat + b 0%nat j 0%nat) <= sizes m (fun i => f 0%nat i 0%nat) (fun i => w i j 0%nat) + sum_error m (sizes m (fun i => f 0%nat i 0%nat) (fun i => w i j 0%nat)) + Rabs (b 0%nat j 0%nat)).
  { intros j Hj. specialize (Hy 0%nat j 0%nat ltac:(lia) Hj ltac:(lia)). eapply Rle_trans; [apply Rabs_triang|]. apply Rplus_le_compat_r. pose proof (sum_size m (fun i => f 0%nat i 0%nat) (fun i => w i j 0%nat)) as Z. cbv beta in *. set (z := Sum rops m _) in *. replace (h 0%nat j 0%nat) with (z + (h 0%nat j 0%nat - z)) by ring. eapply Rle_trans; [apply Rabs_triang|]. lra. }
  destruct (float_add_is y (float_biases p) 1 q 1 h b Ny Hb) as (y' & h' & Ey' & Ny' & Hy').
  { intros i j l Hi Hj Hl. replace i with 0%nat by lia. replace l with 0%nat by lia. unfold in_bounds in *. eapply Rle_lt_trans; [|exact (B j Hj)]. cbv zeta. apply Rmult_le_compat_l; [lra|]. exact (E j Hj). }
  exists y', h'. split; [cbn [float_chain float_layer_forward]; rewrite Ey; cbn [obind]; rewrite Ey'; reflexivity|]. split; [exact Ny'|]. intros j Hj. specialize (Hy 0%nat j 0%nat ltac:(lia) Hj ltac:(lia)). specialize (Hy' 0%nat j 0%nat ltac:(lia) Hj ltac:(lia)). specialize (E j Hj). cbv beta in Hy.
  unfold dense_error. set (z := Sum rops m _) in *. set (s := sizes m _ _) in *. set (e := sum_error m s) in *. set (c := b 0%nat j 0%nat) in *. set (t := h 0%nat j 0%nat) in *.
  replace (h' 0%nat j 0%nat - (z + c)) with ((h' 0%nat j 0%nat - (t + c)) + (t - z)) by ring. eapply Rle_trans; [apply Rabs_triang|]. assert (unit_error * Rabs (t + c) <= unit_error * (s + e + Rabs c)) by (apply Rmult_le_compat_l; lra). lra.
Qed.
Print Assumptions float_dense.

(** The error of a sum grows linearly with its length, up to some million products. *)
Theorem float_error_linear : forall n s, (INR n + 1) * unit_error <= / 2 -> 0 <= s -> sum_error n s <= 2 * (INR n + 1) * unit_error * s + 2 * INR n * tiny.
Proof.
  intros n s H Hs. pose proof unit_pos as U.
  assert (P : forall k, INR k * unit_error <= 1 -> (1 + unit_error) ^ k * (1 - INR k * unit_error) <= 1).
  { induction k as [|k IH]; intros Hk; [cbn [pow INR]; lra|]. rewrite S_INR in *. assert (Q : 0 <= INR k * unit_error) by (apply Rmult_le_pos; [apply pos_INR|lra]). specialize (IH ltac:(lra)). cbn [pow]. eapply Rle_trans; [|exact IH].
    rewrite (Rmult_comm (1 + unit_error)), Rmult_assoc. apply Rmult_le_compat_l; [apply pow_le; lra|]. assert (0 <= unit_error * (INR k * unit_error)) by (apply Rmult_le_pos; lra). assert (0 <= unit_error * unit_error) by (apply Rmult_le_pos; lra). lra. }
  assert (T : forall k, INR k * unit_error <= / 2 -> (1 + unit_error) ^ k <= 1 + 2 * (INR k * unit_error)).
  { intros k Hk. specialize (P k ltac:(lra)). assert (0 <= INR k * unit_error) by (apply Rmult_le_pos; [apply pos_INR|lra]). set (a := INR k * unit_error) in *. set (g := (1 + unit_error) ^ k) in *. apply (Rmult_le_reg_r (1 - a)); [lra|]. eapply Rle_trans; [exact P|]. assert (0 <= a * (1 - 2 * a)) by (apply Rmult_le_pos; lra). lra. }
  assert (En : INR (n + 1) = INR n + 1) by (rewrite plus_INR; reflexivity). pose proof (T (n + 1)%nat ltac:(rewrite En; exact H)) as T1. rewrite En in T1. pose proof (pos_INR n) as N0. pose proof (T n ltac:(lra)) as T0. pose proof tiny_pos as Y. unfold sum_error.
  apply Rplus_le_compat; [apply Rmult_le_compat_r; lra|]. apply Rmult_le_compat_r; [lra|]. rewrite (Rmult_comm 2). apply Rmult_le_compat_l; [lra|]. lra.
Qed.
Print Assumptions float_error_linear.

(** C106 without the condition on overflow *)
(** That the numbers and the exact result are in the range of [float] is not enough: the sum may leave the range on the way.
    The inputs are 2^127, 2^127 and -2^127 and the weights are 1: the exact result is 2^127, the code makes infinity. *)
Definition large : F := binary_normalize 24 128 prec_ok emax_ok mode_NE 1 127 false.
Definition minus_large : F := binary_normalize 24 128 prec_ok emax_ok mode_NE (-1) 127 false.
Definition row (l : list F) : FT := {| rows := 1; cols := length l; chans := 1; get := fun r c k => match nth_error l c with Some x => Ok x | None => UB end |}.
Definition column (l : list F) : FT := {| rows := length l; cols := 1; chans := 1; get := fun r c k => match nth_error l r with Some x => Ok x | None => UB end |}.
Theorem overflow_on_the_way_refuted : exists a b f g,
  numbers a 1 3 1 f /\ numbers b 3 1 1 g /\ in_bounds (Rabs (Sum rops 3 (fun i => f 0%nat i 0%nat * g i 0%nat 0%nat))) /\
  exists y, matrix_multiply fops a b = Ok y /\ get y 0%nat 0%nat 0%nat = Ok plus_infinity.
Proof.
  assert (P : bpow radix2 127 = 2 ^ 127) by (rewrite pow_IZR; reflexivity). assert (B : bpow radix2 127 < max32) by (apply bpow_lt; lia). pose proof (bpow_ge_0 radix2 127) as B0.
  assert (L : number large = 2 ^ 127). { rewrite <- P. unfold number, large. pose proof (binary_normalize_correct 24 128 prec_ok emax_ok mode_NE 1 127 false) as C. cbn [round_mode] in C. assert (Q : F2R (Float radix2 1 127) = bpow radix2 127) by (unfold F2R; cbn [Fnum Fexp]; ring). rewrite Q in C. change (round radix2 (FLT_exp (3 - 128 - 24) 24) ZnearestE (bpow radix2 127)) with (rnd (bpow radix2 127)) in C. rewrite (rnd_id _ (F32_bpow 127 ltac:(lia))) in C. rewrite Rlt_bool_true in C; [exact (proj1 C)|]. rewrite Rabs_pos_eq by apply bpow_ge_0. exact B. }
  assert (M : number minus_large = - 2 ^ 127). { rewrite <- P. unfold number, minus_large. pose proof (binary_normalize_correct 24 128 prec_ok emax_ok mode_NE (-1) 127 false) as C. cbn [round_mode] in C. assert (Q : F2R (Float radix2 (-1) 127) = - bpow radix2 127) by (unfold F2R; cbn [Fnum Fexp]; ring). rewrite Q in C. change (round radix2 (FLT_exp (3 - 128 - 24) 24) ZnearestE (- bpow radix2 127)) with (rnd (- bpow radix2 127)) in C. rewrite (rnd_id _ (generic_format_opp _ _ _ (F32_bpow 127 ltac:(lia)))) in C. rewrite Rlt_bool_true in C; [exact (proj1 C)|]. rewrite Rabs_Ropp, Rabs_pos_eq by apply bpow_ge_0. exact B. }
  clear P B B0.
  exists (row [large; large; minus_large]), (column [of_Z 1; of_Z 1; of_Z 1]), (fun _ c _ => match c with 2%nat => - 2 ^ 127 | _ => 2 ^ 127 end), (fun _ _ _ => 1).
  destruct (of_Z_correct 1) as [V1 _]; [rewrite (rnd_id _ F32_1), Rabs_R1; change 1 with (bpow radix2 0); apply bpow_lt; lia|]. rewrite (rnd_id _ F32_1) in V1.
  split; [|split; [|split]].
  - unfold numbers. repeat split; try reflexivity. intros i j l Hi Hj Hl. destruct j as [|[|[|j]]]; [exists large|exists large|exists minus_large|lia]; (split; [reflexivity|split; [reflexivity|assumption]]).
  - unfold numbers. repeat split; try reflexivity. intros i j l Hi Hj Hl. exists (of_Z 1). split; [destruct i as [|[|[|i]]]; [reflexivity|reflexivity|reflexivity|lia]|split; [reflexivity|exact V1]].
  - cbn [Sum rops zero add]. unfold in_bounds. replace (0 + 2 ^ 127 * 1 + 2 ^ 127 * 1 + - 2 ^ 127 * 1) with (2 ^ 127) by ring. rewrite Rabs_pos_eq by (apply pow_le; lra). apply Rlt_pow; [lra|lia].
  - eexists. split; [reflexivity|]. cbn [get]. vm_compute. reflexivity.
Qed.
Print Assumptions overflow_on_the_way_refuted.

(** A layer with two inputs and one neuron: 3 * 7 + 5 * 2 + 4. *)
Lemma whole : forall z, (Z.abs z <= 2 ^ 24)%Z -> is_number (of_Z z) /\ number (of_Z z) = IZR z.
Proof.
  intros z H. destruct (of_Z_correct z) as [V Fi].
  - rewrite (rnd_id _ (F32_Z z H)). rewrite <- abs_IZR. apply Rle_lt_trans with (IZR (2 ^ 24)); [now apply IZR_le|]. change (IZR (2 ^ 24)) with (bpow radix2 24). apply bpow_lt. lia.
  - split; [exact Fi|]. unfold number. rewrite V. apply rnd_id. now apply F32_Z.
Qed.
Transparent unit_error tiny.
Lemma unit_value : unit_error = / 16777216.
Proof. unfold unit_error. f_equal. ring. Qed.
Lemma tiny_small : tiny <= unit_error.
Proof. unfold tiny, unit_error. apply Rinv_le; [apply pow_lt; lra|]. apply Rle_pow; [lra|lia]. Qed.
Opaque unit_error tiny.
Example ex_dense : forall v, exists y h,
  float_chain {| expf := fun x => x; tanhf := fun x => x |} v {| float_weights := column [of_Z 7; of_Z 2]; float_kernels := []; float_biases := row [of_Z 4]; float_rate := float0 |} [Full; Bias] [row [of_Z 3; of_Z 5]] = Ok y /\
  numbers y 1 1 1 h /\ Rabs (h 0%nat 0%nat 0%nat - 35) <= / 2 ^ 10.
Proof.
  intros v. set (f := fun _ i _ : nat => match i with 0%nat => 3 | _ => 5 end). set (w := fun i _ _ : nat => match i with 0%nat => 7 | _ => 2 end).
  pose proof unit_value as U. pose proof tiny_small as Y. pose proof tiny_pos as Y0.
  assert (S0 : sizes 2 (fun i => f 0%nat i 0%nat) (fun i => w i 0%nat 0%nat) = 31). { unfold sizes. cbn [Sum rops zero add]. unfold f, w. rewrite !Rabs_pos_eq by lra. lra. }
  assert (E : sum_error 2 31 <= / 2 ^ 14). { eapply Rle_trans; [apply float_error_linear; [cbn [INR]; lra|lra]|]. cbn [INR]. replace (2 ^ 14) with 16384 by ring. lra. }
  assert (E0 := sum_error_pos 2 31 ltac:(lra)). replace (2 ^ 14) with 16384 in E by ring. assert (Z4 : Rabs 4 = 4) by (apply Rabs_pos_eq; lra).
  destruct (float_dense {| expf := fun x => x; tanhf := fun x => x |} v {| float_weights := column [of_Z 7; of_Z 2]; float_kernels := []; float_biases := row [of_Z 4]; float_rate := float0 |} (row [of_Z 3; of_Z 5]) 2 1 f w (fun _ _ _ => 4)) as (y & h & Ey & Ny & Hy).
  - unfold numbers. repeat split; try reflexivity. intros i j l Hi Hj Hl. destruct j as [|[|j]]; [exists (of_Z 3)|exists (of_Z 5)|lia]; (split; [reflexivity|apply whole; lia]).
  - unfold numbers. repeat split; try reflexivity. intros i j l Hi Hj Hl. destruct i as [|[|i]]; [exists (of_Z 7)|exists (of_Z 2)|lia]; (split; [reflexivity|apply whole; lia]).
  - unfold numbers. repeat split; try reflexivity. intros i j l Hi Hj Hl. exists (of_Z 4). split; [destruct j as [|j]; [reflexivity|lia]|apply whole; lia].
  - intros j Hj. replace j with 0%nat by lia. cbv zeta. rewrite S0, Z4. unfold in_bounds. apply Rlt_trans with (2 ^ 10); [replace (2 ^ 10) with 1024 by ring; rewrite U; lra|apply Rlt_pow; [lra|lia]].
  - exists y, h. split; [exact Ey|]. split; [exact Ny|]. specialize (Hy 0%nat ltac:(lia)). rewrite S0, Z4 in Hy. replace 35 with (Sum rops 2 (fun i => f 0%nat i 0%nat * w i 0%nat 0%nat) + 4) by (cbn [Sum rops zero add]; unfold f, w; lra). eapply Rle_trans; [exact Hy|]. unfold dense_error. rewrite U. replace (2 ^ 10) with 1024 by ring. lra.
Qed.
