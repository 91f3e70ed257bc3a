From Coq Require Import ZArith Arith Bool Lia Reals Lra.
From Flocq Require Import Core.Core IEEE754.BinarySingleNaN IEEE754.Binary IEEE754.Bits.
From Verif Require Import Outcome F32_Model F32_Proofs Reduce_Spec Reduce_Proofs Exit_Model Exit_Spec.

(** Adding a tolerance that is not negative does not make a loss smaller. *)
Lemma fadd_not_less : forall x tol, finite tol = true -> (0 <= val tol)%R -> number x = true ->
  number (fadd x tol) = true /\ (order x <= order (fadd x tol))%R.
Proof.
  intros x tol Ft Ht Hx. destruct (finite x) eqn:Fx.
  - destruct (Rlt_or_le (Rabs (rnd (val x + val tol))) max32) as [L|L].
    + destruct (fadd_correct x tol Fx Ft L) as [E F]. assert (N : number (fadd x tol) = true) by (destruct (fadd x tol); try discriminate; reflexivity).
      split; [exact N|]. assert (O : forall y, finite y = true -> order y = val y) by (intros [| | |] Hy; try discriminate; reflexivity).
      rewrite (O x Fx), (O _ F), E. rewrite <- (rnd_id (val x)) at 1 by apply val_format. apply rnd_le. lra.
    + pose proof (Bplus_correct 24 128 eq_refl eq_refl binop_nan_pl32 mode_NE x tol Fx Ft) as C. cbn [round_mode] in C.
      rewrite Rlt_bool_false in C by exact L. destruct C as [C Sgn].
      assert (Hge : (val x <= rnd (val x + val tol))%R). { rewrite <- (rnd_id (val x)) at 1 by apply val_format. apply rnd_le. lra. }
      pose proof (val_lt_max x) as Mx. apply Rabs_def2 in Mx. assert (P : (0 < rnd (val x + val tol))%R).
      { destruct (Rle_or_lt (rnd (val x + val tol)) 0) as [Q|Q]; [|exact Q]. rewrite Rabs_left1 in L by exact Q. lra. }
      assert (Sx : Bsign 24 128 x = false).
      { destruct (Bsign 24 128 x) eqn:Sx; [|reflexivity]. exfalso.
        assert (Neg : forall y, Bsign 24 128 y = true -> (val y <= 0)%R).
        { intros [sy|sy|sy|sy my ey Hy] Hs; cbn in Hs |- *; try lra. subst sy. apply F2R_le_0. cbn. lia. }
        pose proof (Neg x Sx). pose proof (Neg tol (eq_sym Sgn)).
        assert (rnd (val x + val tol) <= 0)%R by (rewrite <- rnd_0; apply rnd_le; lra). lra. }
      rewrite Sx in C. change (fadd x tol) with (Bplus 24 128 eq_refl eq_refl binop_nan_pl32 mode_NE x tol).
      assert (I : B2FF 24 128 (Bplus 24 128 eq_refl eq_refl binop_nan_pl32 mode_NE x tol) = F754_infinity false) by exact C.
      destruct (Bplus 24 128 eq_refl eq_refl binop_nan_pl32 mode_NE x tol) as [| sg | |] eqn:E; try discriminate. injection I as ->.
      split; [reflexivity|].
      assert (Ox : order x = val x) by (destruct x; try discriminate; reflexivity). rewrite Ox. change (order (B754_infinity 24 128 false)) with (bpow radix2 128). left. apply Mx.
  - destruct x as [|sx| |]; try discriminate. destruct tol as [st| | |st mt et Ht']; try discriminate; (split; [reflexivity|]); right; reflexivity.
Qed.
Lemma fle_order : forall x y, number x = true -> number y = true -> (fle x y = true <-> (order x <= order y)%R).
Proof.
  intros x y Hx Hy. pose proof (fgt_order x y Hx Hy) as G. pose proof (feq_order x y Hx Hy) as Q. pose proof (flt_order x y Hx Hy) as L.
  unfold fle, fgt, feq, flt in *. destruct (b32_compare x y) as [[]|] eqn:E.
  - split; [intros _|reflexivity]. right. now apply Q.
  - split; [intros _|reflexivity]. left. now apply L.
  - split; [discriminate|]. destruct G as [G _]. specialize (G eq_refl). lra.
  - exfalso. destruct G as [_ G], Q as [_ Q], L as [_ L]. destruct (Rtotal_order (order x) (order y)) as [H|[H|H]]; [now discriminate L|now discriminate Q|now discriminate G].
Qed.
Lemma fle_number : forall x y, fle x y = true -> number x = true /\ number y = true.
Proof.
  intros x y H. split.
  - destruct (number x) eqn:E; [reflexivity|]. unfold fle in H. rewrite compare_nan_l in H by exact E. discriminate.
  - destruct (number y) eqn:E; [reflexivity|]. unfold fle in H. rewrite compare_nan_r in H by exact E. discriminate.
Qed.
Lemma fadd_nan : forall x tol, number x = false -> number (fadd x tol) = false.
Proof. intros [| | |] tol H; try discriminate. now destruct tol. Qed.
Lemma fmin_improved : forall x tol y, finite tol = true -> (0 <= val tol)%R -> fle (fadd x tol) y = true -> fmin x y = x.
Proof.
  intros x tol y Ft Ht H. destruct (fle_number _ _ H) as [Ns Ny]. assert (Nx : number x = true).
  { destruct (number x) eqn:E; [reflexivity|]. rewrite (fadd_nan x tol E) in Ns. discriminate. }
  destruct (fadd_not_less x tol Ft Ht Nx) as [_ L]. apply (fle_order _ _ Ns Ny) in H.
  unfold fmin. destruct (flt y x) eqn:E; [|reflexivity]. apply (flt_order _ _ Ny Nx) in E. lra.
Qed.

Lemma best_le : forall tol loss k b, best tol loss k b -> b <= k.
Proof. intros tol loss k b H. induction H; lia. Qed.
Lemma best_unique : forall tol loss k b b', best tol loss k b -> best tol loss k b' -> b = b'.
Proof.
  intros tol loss k. induction k as [|k IH]; intros b b' H H'; [inversion H; inversion H'; congruence|].
  inversion H as [|? P E|? P E|? c Hc P E|? c Hc P E]; inversion H' as [|? Q F|? Q F|? d Hd Q F|? d Hd Q F]; subst; try reflexivity;
    pose proof (IH _ _ P Q); subst; try lia; congruence.
Qed.
Lemma best_exists : forall tol loss k, exists b, best tol loss k b.
Proof.
  intros tol loss k. induction k as [|k [b IH]]; [exists 0; constructor|]. destruct b as [|b].
  - destruct (fle (fadd (loss (S k)) tol) infinity) eqn:E; eexists; [now apply best_first|now apply best_none].
  - destruct (fle (fadd (loss (S k)) tol) (loss (S b))) eqn:E; eexists; [apply (best_better _ _ _ (S b))|apply (best_same _ _ _ (S b))]; try assumption; lia.
Qed.

(** The state after [k] epochs holds the best epoch and its loss. *)
Definition holds_best (loss : nat -> binary32) (b : nat) (p : progress) : Prop :=
  lowestLossEpoch p = b /\ lowestLoss p = match b with 0 => infinity | _ => loss b end.
Lemma after_best : forall s loss time k, finite (improvementTolerance s) = true -> (0 <= val (improvementTolerance s))%R ->
  exists p b, after s start loss time k = Ok p /\ best (improvementTolerance s) loss k b /\ holds_best loss b p.
Proof.
  intros s loss time k Ft Ht. induction k as [|k (p & b & E & B & H1 & H2)].
  - exists start, 0. split; [reflexivity|]. split; [constructor|]. split; reflexivity.
  - cbn [after]. rewrite E. cbn [obind]. unfold isDone. rewrite H1, H2. pose proof (best_le _ _ _ _ B) as Hb.
    assert (N : Nat.ltb (S k) b = false) by (apply Nat.ltb_ge; lia). rewrite N. destruct b as [|b'].
    + destruct (fle (fadd (loss (S k)) (improvementTolerance s)) infinity) eqn:F; cbn [obind fst].
      * eexists. exists (S k). split; [reflexivity|]. split; [now apply best_first|]. split; [reflexivity|]. cbn [lowestLoss].
        now rewrite (fmin_improved _ _ _ Ft Ht F).
      * eexists. exists 0. split; [reflexivity|]. split; [now apply best_none|]. split; assumption.
    + destruct (fle (fadd (loss (S k)) (improvementTolerance s)) (loss (S b'))) eqn:F; cbn [obind fst].
      * eexists. exists (S k). split; [reflexivity|]. split; [apply (best_better _ _ _ (S b')); auto; lia|]. split; [reflexivity|]. cbn [lowestLoss].
        now rewrite (fmin_improved _ _ _ Ft Ht F).
      * eexists. exists (S b'). split; [reflexivity|]. split; [apply best_same; auto; lia|]. split; assumption.
Qed.

(** One call: its state and answer. *)
Lemma done_at_best : forall s loss time k, finite (improvementTolerance s) = true -> (0 <= val (improvementTolerance s))%R -> 0 < k ->
  exists p b, after s start loss time k = Ok p /\ best (improvementTolerance s) loss k b /\ holds_best loss b p /\
    done_at s start loss time k = Ok (Nat.leb (minEpochs s) k && (Nat.leb (maxEpochs s) k || fge (degradation (loss k) p) (maxDegradationTolerance s) ||
      Z.leb (maxElapsedTime s) (time k) || Nat.leb (patience s) (k - b) || fle (loss k) (zeroPrecisionTolerance s))).
Proof.
  intros s loss time k Ft Ht Hk. destruct (after_best s loss time k Ft Ht) as (p & b & E & B & H1 & H2). exists p, b.
  split; [exact E|]. split; [exact B|]. split; [split; assumption|]. unfold done_at. destruct k as [|k]; [lia|].
  cbn [Nat.sub]. rewrite Nat.sub_0_r. cbn [after] in E. destruct (after s start loss time k) as [q| |]; try discriminate. cbn [obind] in E |- *.
  unfold isDone in E |- *.
  set (x := if fle _ _ then Ok _ else _) in *. destruct x as [q'| |]; try discriminate. cbn [obind fst snd] in E |- *.
  assert (q' = p) by (injection E; auto). subst q'. rewrite H1. reflexivity.
Qed.
Lemma nan_fsub_l : forall x y, number x = false -> number (fsub x y) = false.
Proof. intros [| | |] y H; try discriminate. now destruct y. Qed.
Lemma nan_fdiv_l : forall x y, number x = false -> number (fdiv x y) = false.
Proof. intros [| | |] y H; try discriminate. now destruct y. Qed.
Lemma fge_number : forall x y, fge x y = true -> number x = true.
Proof. intros x y H. destruct (number x) eqn:E; [reflexivity|]. unfold fge in H. rewrite compare_nan_l in H by exact E. discriminate. Qed.
Lemma best_zero_nan : forall tol loss k, finite tol = true -> best tol loss k 0 -> 0 < k -> number (loss k) = false.
Proof.
  intros tol loss k Ft H Hk. inversion H as [E| | k' B F E| |k' b Hb B F E]; subst; try lia.
  destruct (loss (S k')) as [sx|sx|sx px Hx|sx mx ex Hx] eqn:El; [exfalso|exfalso|reflexivity|exfalso].
  - revert F. destruct tol as [st|st| |st mt et Ht]; try discriminate; destruct sx; try destruct st; vm_compute; discriminate.
  - revert F. destruct tol as [st|st| |st mt et Ht]; try discriminate; destruct sx; vm_compute; discriminate.
  - assert (G : forall y, number y = true -> fle y infinity = true).
    { intros y Hy. apply fle_order; [exact Hy|reflexivity|]. assert (Oi : order infinity = bpow radix2 128) by reflexivity. rewrite Oi.
      destruct y as [sy|sy| |sy my ey Hey]; try discriminate.
      - cbn [order]. apply bpow_ge_0.
      - destruct sy; cbn [order]; [|right; reflexivity]. pose proof (bpow_gt_0 radix2 128). lra.
      - cbn [order]. pose proof (val_lt_max (B754_finite 24 128 sy my ey Hey)) as M. apply Rabs_def2 in M. unfold max32 in M. left. apply M. }
    rewrite G in F; [discriminate|].
    set (x := B754_finite 24 128 sx mx ex Hx) in *. assert (Fx : finite x = true) by reflexivity.
    destruct (Rlt_or_le (Rabs (rnd (val x + val tol))) max32) as [L|L].
    + destruct (fadd_correct x tol Fx Ft L) as [_ Fi]. destruct (fadd x tol); try discriminate; reflexivity.
    + pose proof (Bplus_correct 24 128 eq_refl eq_refl binop_nan_pl32 mode_NE x tol Fx Ft) as C. cbn [round_mode] in C.
      rewrite Rlt_bool_false in C by exact L. destruct C as [C _].
      change (fadd x tol) with (Bplus 24 128 eq_refl eq_refl binop_nan_pl32 mode_NE x tol).
      destruct (Bplus 24 128 eq_refl eq_refl binop_nan_pl32 mode_NE x tol); try reflexivity. discriminate C.
Qed.
