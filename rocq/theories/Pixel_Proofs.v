From Coq Require Import List NArith ZArith Bool Reals Lia Lra Psatz.
From Flocq Require Import Core.Core IEEE754.Binary IEEE754.Bits.
From Verif Require Import Outcome F32_Model F32_Proofs DataSet_Proofs Pixel_Model.
Import ListNotations.
Local Open Scope R_scope.

Lemma v0 : val (of_Z 0) = 0. Proof. apply val_of_Z_small. lia. Qed.
Lemma f0 : finite (of_Z 0) = true. Proof. reflexivity. Qed.
Lemma v1 : val (of_Z 1) = 1. Proof. apply val_of_Z_small. lia. Qed.
Lemma f1 : finite (of_Z 1) = true. Proof. reflexivity. Qed.
Lemma v255 : val (of_Z 255) = 255. Proof. apply val_of_Z_small. lia. Qed.
Lemma f255 : finite (of_Z 255) = true. Proof. reflexivity. Qed.

Definition clamped (v : binary32) : binary32 := std_max (of_Z 0) (std_min v (of_Z 1)).

Lemma clamped_finite v : finite v = true -> finite (clamped v) = true /\ val (clamped v) = Rmax 0 (Rmin (val v) 1).
Proof.
  intro F. unfold clamped, std_max, std_min. 
  destruct (flt (of_Z 1) v) eqn:E1.
  - apply flt_true in E1; [|exact f1|exact F]. rewrite v1 in E1.
    replace (flt (of_Z 0) (of_Z 1)) with true by (vm_compute; reflexivity). split; [exact f1|].
    rewrite v1, Rmin_right by lra. rewrite Rmax_right; lra.
  - assert (L1 : val v <= 1).
    { destruct (Rle_or_lt (val v) 1) as [L|L]; [exact L|]. exfalso. rewrite <- v1 in L. apply flt_true in L; [congruence|exact f1|exact F]. }
    rewrite Rmin_left by exact L1. destruct (flt (of_Z 0) v) eqn:E0.
    + apply flt_true in E0; [|exact f0|exact F]. rewrite v0 in E0. split; [exact F|]. rewrite Rmax_right; lra.
    + assert (L0 : val v <= 0).
      { destruct (Rle_or_lt (val v) 0) as [L|L]; [exact L|]. exfalso. rewrite <- v0 in L. apply flt_true in L; [congruence|exact f0|exact F]. }
      split; [exact f0|]. rewrite v0. now rewrite Rmax_left.
Qed.

Lemma store_unit c : finite c = true -> 0 <= val c <= 1 ->
  to_unsigned 8 (fmul c (of_Z 255)) = Ok (Z.to_N (Zfloor (rnd (val c * 255)))) /\ (0 <= Zfloor (rnd (val c * 255)) <= 255)%Z.
Proof.
  intros F H.
  assert (F255 : F32 255) by (apply (F32_Z 255); cbn; lia).
  assert (L : 0 <= rnd (val c * 255) <= 255).
  { split; [apply rnd_ge0; lra|]. apply rnd_le_F; [exact F255|lra]. }
  destruct (fmul_correct c (of_Z 255) F f255) as [E FM].
  { rewrite v255, Rabs_pos_eq by lra. apply Rle_lt_trans with (1 := proj2 L). apply (Rlt_le_trans _ (bpow radix2 8)); [cbn; lra|apply bpow_le; lia]. }
  rewrite v255 in E. set (r := rnd (val c * 255)) in *.
  assert (Z0 : (0 <= Zfloor r)%Z) by (apply Zfloor_lub; apply L).
  assert (Z1 : (Zfloor r <= 255)%Z) by (apply le_IZR; apply Rle_trans with (1 := Zfloor_lb r); apply L).
  split; [|lia]. apply to_unsigned_ok; [lia|exact FM| |rewrite Z2N.id by exact Z0; lia].
  rewrite Z2N.id by exact Z0. rewrite E. split; [apply Zfloor_lb|]. rewrite plus_IZR. apply Zfloor_ub.
Qed.

Lemma store_finite v : finite v = true ->
  pixel_store v = Ok (Z.to_N (Zfloor (rnd (Rmax 0 (Rmin (val v) 1) * 255)))) /\
  (0 <= Zfloor (rnd (Rmax 0 (Rmin (val v) 1) * 255)) <= 255)%Z.
Proof.
  intro F. destruct (clamped_finite v F) as [FC EC]. unfold pixel_store. fold (clamped v). rewrite <- EC. apply store_unit; [exact FC|].
  rewrite EC. split; [apply Rmax_l|]. apply Rmax_lub; [lra|apply Rmin_r].
Qed.

Lemma store_infinite v : finite v = false -> pixel_store v = Ok (if flt (of_Z 1) v then 255 else 0)%N.
Proof. destruct v as [s|s|s p e|s m e b]; intro H; try discriminate H; [destruct s; vm_compute; reflexivity|]. reflexivity. Qed.

Lemma store_monotone v w : finite v = true -> finite w = true -> val v <= val w ->
  exists a b, pixel_store v = Ok a /\ pixel_store w = Ok b /\ (a <= b)%N.
Proof.
  intros Fv Fw H. destruct (store_finite v Fv) as [Ev Bv]. destruct (store_finite w Fw) as [Ew Bw].
  eexists _, _. split; [exact Ev|]. split; [exact Ew|]. apply Z2N.inj_le; [apply Bv|apply Bw|]. apply Zfloor_le, rnd_le.
  apply Rmult_le_compat_r; [lra|]. apply Rle_max_compat_l. apply Rle_min_compat_r. exact H.
Qed.

Definition all_pixels : list N := map N.of_nat (seq 0 256).
Definition exact_pixel (k : N) : bool := match pixel_store (pixel_value k) with Ok j => N.eqb j k | _ => false end.

Lemma all_exact : forallb exact_pixel all_pixels = true.
Proof. vm_compute. reflexivity. Qed.

Lemma pixel_exact k : (k < 256)%N -> pixel_store (pixel_value k) = Ok k.
Proof.
  intro H. pose proof all_exact as A. rewrite forallb_forall in A. specialize (A k).
  assert (In k all_pixels) as Hin. { apply in_map_iff. exists (N.to_nat k). split; [lia|apply in_seq; lia]. }
  specialize (A Hin). unfold exact_pixel in A. destruct (pixel_store (pixel_value k)) as [j| |]; try discriminate. apply N.eqb_eq in A. now subst.
Qed.

Lemma pixel_value_correct k : (k < 256)%N -> val (pixel_value k) = rnd (IZR (Z.of_N k) / 255) /\ finite (pixel_value k) = true.
Proof.
  intro H. unfold pixel_value, of_N. destruct (val_of_Z_small (Z.of_N k)) as [E F]; [lia|].
  destruct (fdiv_correct (of_Z (Z.of_N k)) (of_Z 255) F) as [A B].
  - rewrite v255. lra.
  - rewrite E, v255. assert (0 <= IZR (Z.of_N k) <= 255) by (split; apply IZR_le; lia).
    assert (0 <= rnd (IZR (Z.of_N k) / 255) <= 1) as Hb. { split; [apply rnd_ge0; lra|apply rnd_le_F; [apply F32_1|lra]]. }
    rewrite Rabs_pos_eq by lra. apply Rle_lt_trans with (1 := proj2 Hb). apply (bpow_lt radix2 0 128). lia.
  - rewrite E, v255 in A. auto.
Qed.

Lemma rnd_error_unit x : 0 <= x <= 1 -> Rabs (rnd x - x) <= bpow radix2 (-25).
Proof.
  intro H. pose proof (error_le_half_ulp radix2 fexp32 (fun n => negb (Z.even n)) x) as E.
  destruct (Req_dec x 1) as [->|N1]. { rewrite (rnd_id 1 F32_1). rewrite Rminus_diag_eq, Rabs_R0 by reflexivity. apply bpow_ge_0. }
  destruct (Req_dec x 0) as [->|N0]. { rewrite rnd_0. rewrite Rminus_diag_eq, Rabs_R0 by reflexivity. apply bpow_ge_0. }
  apply Rle_trans with (1 := E). rewrite ulp_neq_0 by exact N0.
  assert (C : (cexp radix2 fexp32 x <= -24)%Z).
  { unfold cexp. assert (M : (mag radix2 x <= 0)%Z). { apply mag_le_bpow; [exact N0|]. change (bpow radix2 0) with 1. rewrite Rabs_pos_eq by lra. destruct (Rle_lt_or_eq_dec x 1 (proj2 H)) as [L|L]; [exact L|contradiction]. }
    unfold SpecFloat.fexp, SpecFloat.emin. lia. }
  apply Rle_trans with (/ 2 * bpow radix2 (-24)).
  - apply Rmult_le_compat_l; [lra|]. now apply bpow_le.
  - change (-25)%Z with (-1 + -24)%Z. rewrite bpow_plus. change (bpow radix2 (-1)) with (/ 2). lra.
Qed.

Lemma store_error v : finite v = true -> 0 <= val v <= 1 ->
  exists k, pixel_store v = Ok k /\ Rabs (val (pixel_value k) - val v) < 1 / 255 + bpow radix2 (-24).
Proof.
  intros F H. destruct (store_finite v F) as [E B]. rewrite Rmin_left, Rmax_right in E, B by lra.
  set (r := rnd (val v * 255)) in *. eexists. split; [exact E|].
  destruct (pixel_value_correct (Z.to_N (Zfloor r))) as [EV _]; [lia|]. rewrite EV, Z2N.id by lia. clear EV.
  set (k := Zfloor r) in *. assert (K : 0 <= IZR k <= 255) by (split; apply IZR_le; lia).
  assert (R1 : IZR k <= r) by apply Zfloor_lb. assert (R2 : r < IZR k + 1) by apply Zfloor_ub.
  pose proof (rnd_error_unit (IZR k / 255) ltac:(lra)) as E1. 
  (* upper: v * 255 < k + 1 *)
  assert (U : val v * 255 < IZR k + 1).
  { destruct (Rlt_or_le (val v * 255) (IZR k + 1)) as [L|L]; [exact L|]. exfalso. apply (rnd_ge_F _ (IZR k + 1)) in L; [fold r in L; lra|].
    rewrite <- plus_IZR. apply F32_Z. lia. }
  (* lower: k - 1 < v * 255 *)
  assert (Lw : IZR k - 1 < val v * 255).
  { destruct (Rlt_or_le (IZR k - 1) (val v * 255)) as [L|L]; [exact L|]. exfalso. apply (rnd_le_F _ (IZR k - 1)) in L; [fold r in L; lra|].
    rewrite <- minus_IZR. apply F32_Z. lia. }
  assert (B24 : bpow radix2 (-25) < bpow radix2 (-24)) by (apply bpow_lt; lia).
  set (q := rnd (IZR k / 255)) in *. clearbody q r k. apply Rabs_le_inv in E1. apply Rabs_lt. lra.
Qed.
