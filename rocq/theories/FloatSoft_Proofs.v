(** Proofs about softmax in [float]. *)
From Coq Require Import List Arith Bool ZArith Reals Lia Lra.
From Flocq Require Import Core Relative Plus_error IEEE754.BinarySingleNaN IEEE754.Binary IEEE754.Bits.
From Verif Require Import Outcome Tensor_Model Tensor_Spec F32_Model F32_Proofs Reduce_Model Activation_Model FloatNet_Model FloatNet_Spec FloatNet_Proofs.
From Verif Require Import Layer_Spec.
From Verif Require Reduce_Spec Reduce_Proofs Reduce_Props.
Import ListNotations.
Local Open Scope R_scope.
Notation order := Reduce_Spec.order.
Notation elements := Reduce_Spec.elements.

(** ** [double] *)
Notation fexp64 := (SpecFloat.fexp 53 1024).
Notation rnd64 := (round radix2 fexp64 ZnearestE).
Notation F64 := (generic_format radix2 fexp64).
Notation val64 := (B2R 53 1024).
Notation finite64 := (is_finite 53 1024).
#[global] Instance fexp64_valid : Valid_exp fexp64 := fexp_correct 53 1024 prec64_ok.
#[global] Instance fexp64_mono : Monotone_exp fexp64 := fexp_monotone 53 1024.
Lemma unit64_is : double_error = / 2 * bpow radix2 (- (53) + 1).
Proof. unfold double_error. change (- (53) + 1)%Z with (Z.opp 52). rewrite bpow_opp. change (bpow radix2 52) with (IZR (2 ^ 52)). rewrite <- (Rinv_mult 2). f_equal. rewrite pow_IZR. rewrite <- mult_IZR. reflexivity. Qed.
Lemma unit64_pos : 0 < double_error.
Proof. unfold double_error. apply Rinv_0_lt_compat. apply pow_lt. lra. Qed.
Lemma unit64_small : double_error <= / 1024.
Proof. unfold double_error. apply Rinv_le; [lra|]. replace 1024 with (2 ^ 10) by lra. apply Rle_pow; [lra|lia]. Qed.
#[global] Opaque double_error.
Lemma rnd64_le x y : x <= y -> rnd64 x <= rnd64 y.
Proof. apply round_le; auto with typeclass_instances. Qed.
Lemma rnd64_id x : F64 x -> rnd64 x = x.
Proof. apply round_generic; auto with typeclass_instances. Qed.
Lemma F64_F32 : forall x, F32 x -> F64 x.
Proof. intros x. apply generic_inclusion_mag. intros _. unfold SpecFloat.fexp, SpecFloat.emin. lia. Qed.
Lemma F64_bpow e : (-1074 <= e)%Z -> F64 (bpow radix2 e).
Proof. intro H. apply generic_format_bpow. unfold SpecFloat.fexp, SpecFloat.emin. lia. Qed.
Lemma rounded_sum64 : forall x y, F64 x -> F64 y -> exists e, Rabs e <= double_error /\ rnd64 (x + y) = (x + y) * (1 + e).
Proof.
  intros x y Fx Fy. destruct (@FLT_plus_error_N_ex radix2 (-1074) 53 prec64_ok (fun z => negb (Z.even z)) x y Fx Fy) as (e & He & E). exists e. split; [|exact E].
  eapply Rle_trans; [exact He|]. unfold u_ro. rewrite <- unit64_is. pose proof unit64_pos as U. apply (Rmult_le_reg_r (1 + double_error)); [lra|]. unfold Rdiv. rewrite Rmult_assoc, Rinv_l by lra. rewrite Rmult_1_r. assert (0 <= double_error * double_error) by (apply Rmult_le_pos; lra). lra.
Qed.
Lemma widen_is : forall x, is_number x -> finite64 (widen x) = true /\ val64 (widen x) = number x.
Proof.
  intros [s|s|s pl e|s m e b] H; try discriminate H; [split; reflexivity|]. unfold widen. set (x := B754_finite 24 128 s m e b).
  pose proof (binary_normalize_correct 53 1024 prec64_ok emax64_ok mode_NE (cond_Zopp s (Z.pos m)) e s) as C. cbn [round_mode] in C.
  assert (E : F2R (Float radix2 (cond_Zopp s (Z.pos m)) e) = number x) by reflexivity. rewrite E in C. rewrite (rnd64_id (number x)) in C by (apply F64_F32; apply val_format).
  rewrite Rlt_bool_true in C. { destruct C as (A & B & _). split; [exact B|exact A]. }
  eapply Rlt_trans; [apply val_lt_max|]. apply bpow_lt. lia.
Qed.
Lemma narrow_is : forall x, finite64 x = true -> Rabs (rnd (val64 x)) < max32 -> is_number (narrow x) /\ number (narrow x) = rnd (val64 x).
Proof.
  intros [s|s|s pl e|s m e b] H B; try discriminate H; [split; [reflexivity|]; symmetry; apply rnd_0|]. unfold narrow. set (x := B754_finite 53 1024 s m e b) in *.
  pose proof (binary_normalize_correct 24 128 prec_ok emax_ok mode_NE (cond_Zopp s (Z.pos m)) e s) as C. cbn [round_mode] in C.
  assert (E : F2R (Float radix2 (cond_Zopp s (Z.pos m)) e) = val64 x) by reflexivity. rewrite E in C. rewrite Rlt_bool_true in C by exact B. destruct C as (A & N & _). split; [exact N|exact A].
Qed.
Definition add64 (x y : D) : D := b64_plus mode_NE x y.
Lemma add64_is : forall x y, finite64 x = true -> finite64 y = true -> Rabs (rnd64 (val64 x + val64 y)) < bpow radix2 1024 -> finite64 (add64 x y) = true /\ val64 (add64 x y) = rnd64 (val64 x + val64 y).
Proof.
  intros x y Fx Fy H. pose proof (Bplus_correct 53 1024 eq_refl eq_refl binop_nan_pl64 mode_NE x y Fx Fy) as C.
  cbn [round_mode] in C. rewrite Rlt_bool_true in C by exact H. destruct C as (A & B & _). split; assumption.
Qed.
Definition fraction (x : F) : Prop := is_number x /\ 0 <= number x <= 1.
Notation step64 := (fun result v => add64 result (widen v)).
(** However many fractions are added, the sum stays at 2^54 at most. *)
Definition ceiling : R := bpow radix2 54.
Lemma ceiling_stays : forall a x, a <= ceiling -> x <= 1 -> rnd64 (a + x) <= ceiling.
Proof.
  intros a x Ha Hx. apply round_N_le_midp; [auto with typeclass_instances|apply F64_bpow; lia|].
  rewrite succ_eq_pos by apply bpow_ge_0. unfold ceiling in *. rewrite ulp_bpow. change (bpow radix2 (fexp64 (54 + 1))) with 4. lra.
Qed.
Lemma ceiling_small : ceiling < bpow radix2 1024.
Proof. apply bpow_lt. lia. Qed.
Lemma add_fraction : forall a x, finite64 a = true -> 0 <= val64 a <= ceiling -> fraction x ->
  finite64 (step64 a x) = true /\ val64 a <= val64 (step64 a x) <= ceiling /\ number x <= val64 (step64 a x) /\ (val64 a + number x) * (1 - double_error) <= val64 (step64 a x) <= (val64 a + number x) * (1 + double_error).
Proof.
  intros a x Fa [A0 A1] [Nx [X0 X1]]. cbv beta. destruct (widen_is x Nx) as [Fw Vw].
  assert (L : val64 a <= rnd64 (val64 a + number x)) by (rewrite <- (rnd64_id (val64 a)) at 1 by apply generic_format_B2R; apply rnd64_le; lra).
  assert (L' : number x <= rnd64 (val64 a + number x)) by (rewrite <- (rnd64_id (number x)) at 1 by (apply F64_F32; apply val_format); apply rnd64_le; lra).
  assert (U : rnd64 (val64 a + number x) <= ceiling) by (now apply ceiling_stays).
  destruct (add64_is a (widen x) Fa Fw) as [F' V']. { rewrite Vw. rewrite Rabs_pos_eq by lra. eapply Rle_lt_trans; [exact U|apply ceiling_small]. }
  rewrite Vw in V'. split; [exact F'|]. rewrite V'. split; [lra|]. split; [exact L'|].
  destruct (rounded_sum64 (val64 a) (number x)) as (e & He & ->); [apply generic_format_B2R|apply F64_F32; apply val_format|]. apply Rabs_le_inv in He. split; (apply Rmult_le_compat_l; lra).
Qed.
Lemma add_fractions : forall l a, finite64 a = true -> 0 <= val64 a <= ceiling -> Forall fraction l ->
  let s := fold_left step64 l a in finite64 s = true /\ val64 a <= val64 s <= ceiling /\ (forall x, In x l -> number x <= val64 s) /\
  (val64 a + total number l) * (1 - double_error) ^ length l <= val64 s <= (val64 a + total number l) * (1 + double_error) ^ length l.
Proof.
  induction l as [|x l IH]; intros a Fa Ha Fl; cbv zeta in *.
  - cbn [fold_left length pow total fold_right]. split; [exact Fa|]. split; [lra|]. split; [intros x []|]. lra.
  - inversion Fl as [|? ? Fx Fl']; subst. destruct (add_fraction a x Fa Ha Fx) as (F1 & B1 & X1 & E1). cbv beta in *. cbn [fold_left].
    set (a' := add64 a (widen x)) in *. destruct (IH a' F1 ltac:(lra) Fl') as (F2 & B2 & X2 & E2). set (s := fold_left step64 l a') in *.
    split; [exact F2|]. split; [lra|]. split. { intros y [<-|Hy]; [lra|now apply X2]. }
    cbn [length total fold_right]. fold (total number l). rewrite <- !tech_pow_Rmult.
    assert (T0 : 0 <= total number l). { clear - Fl'. induction l as [|y l IH]; cbn; [lra|]. inversion Fl' as [|? ? [_ Y] Fl2]; subst. apply Rplus_le_le_0_compat; [lra|now apply IH]. }
    pose proof unit64_pos as U. pose proof unit64_small as U'. destruct Fx as [_ Fx].
    assert (P0 : 0 < (1 - double_error) ^ length l) by (apply pow_lt; lra). assert (P1 : 0 < (1 + double_error) ^ length l) by (apply pow_lt; lra).
    set (t := total number l) in *. set (p0 := (1 - double_error) ^ length l) in *. set (p1 := (1 + double_error) ^ length l) in *. set (u := double_error) in *. clearbody t p0 p1 u.
    split.
    + eapply Rle_trans; [|apply E2]. replace ((val64 a + (number x + t)) * ((1 - u) * p0)) with (((val64 a + number x) * (1 - u) + t * (1 - u)) * p0) by ring. apply Rmult_le_compat_r; [lra|]. assert (0 <= t * u) by (apply Rmult_le_pos; lra). lra.
    + eapply Rle_trans; [apply E2|]. replace ((val64 a + (number x + t)) * ((1 + u) * p1)) with (((val64 a + number x) * (1 + u) + t * (1 + u)) * p1) by ring. apply Rmult_le_compat_r; [lra|]. assert (0 <= t * u) by (apply Rmult_le_pos; lra). lra.
Qed.

(** ** Subtracting the maximum *)
Lemma order_number : forall x, is_number x -> order x = number x.
Proof. intros [s|s|s pl e|s m e b] H; try discriminate H; reflexivity. Qed.
Lemma not_NaN : forall x, ~ is_NaN x <-> Reduce_Spec.number x = true.
Proof. intros x. unfold is_NaN, Reduce_Spec.number. destruct (is_nan 24 128 x); cbn; split; intros; congruence. Qed.
Lemma fraction_order : forall x, ~ is_NaN x -> 0 <= order x <= 1 -> fraction x.
Proof.
  intros x N B. assert (Nx : is_number x). { pose proof (bpow_gt_0 radix2 128) as P. assert (1 < max32) by (change 1 with (bpow radix2 0); apply bpow_lt; lia). destruct x as [s|[|]|s pl e|s m e b]; try reflexivity; cbn in B; [lra|lra|]. exfalso. apply N. reflexivity. }
  split; [exact Nx|]. now rewrite <- order_number.
Qed.
Lemma number_not_NaN : forall x, is_number x -> ~ is_NaN x.
Proof. intros [s|s|s pl e|s m e b] H N; discriminate. Qed.
(** What is left of a score after the maximum is taken away. *)
Definition rest (top : R) (v : F) : R := match v with B754_infinity _ _ _ => - max32 | _ => Rmax (rnd (number v - top)) (- max32) end.
Lemma take_away : forall v top, ~ is_NaN v -> v <> plus_infinity -> is_number top -> order v <= number top -> ~ is_NaN (fsub v top) /\ order (fsub v top) = rest (number top) v /\ order (fsub v top) <= 0.
Proof.
  intros v top N NI Nt L. assert (Fin : is_number v -> ~ is_NaN (fsub v top) /\ order (fsub v top) = Rmax (rnd (number v - number top)) (- max32) /\ order (fsub v top) <= 0).
  { intros Nv. rewrite (order_number v Nv) in L. assert (Z : rnd (number v - number top) <= 0) by (apply rnd_le_F; [apply F32_0|lra]).
    pose proof (Bminus_correct 24 128 eq_refl eq_refl binop_nan_pl32 mode_NE v top Nv Nt) as C. cbn [round_mode] in C. fold (number v) (number top) in C. fold (fsub v top) in C.
    destruct (Rlt_or_le (Rabs (rnd (number v - number top))) max32) as [B|B].
    - rewrite Rlt_bool_true in C by exact B. destruct C as (A & Fi & _). change (number (fsub v top) = rnd (number v - number top)) in A. assert (Nr : is_number (fsub v top)) by exact Fi. split; [now apply number_not_NaN|]. rewrite (order_number _ Nr), A. apply Rabs_def2 in B. split; [|exact Z]. rewrite Rmax_left; [reflexivity|lra].
    - rewrite Rlt_bool_false in C by exact B. destruct C as (A & Sg). change (B2FF 24 128 (fsub v top) = binary_overflow 24 128 mode_NE (Bsign 24 128 v)) in A. rewrite Rabs_left1 in B by exact Z.
      assert (Neg : Bsign 24 128 v = true).
      { destruct (Bsign 24 128 v) eqn:Sv; [reflexivity|]. exfalso. assert (St : Bsign 24 128 top = true) by (destruct (Bsign 24 128 top); [reflexivity|discriminate Sg]).
        assert (Pv : 0 <= number v) by (clear - Sv Nv; destruct v as [s|s|s pl e|s m e b]; try discriminate Nv; cbn in Sv |- *; [lra|subst s; apply F2R_ge_0; cbn; lia]).
        assert (Pt : number top <= 0) by (clear - St Nt; destruct top as [s|s|s pl e|s m e b]; try discriminate Nt; cbn in St |- *; [lra|subst s; apply F2R_le_0; cbn; lia]).
        assert (Q : number v - number top = 0) by lra. rewrite Q, rnd_0 in B. pose proof (bpow_gt_0 radix2 128). lra. }
      rewrite Neg in A. assert (E : fsub v top = B754_infinity 24 128 true) by (clear - A; destruct (fsub v top) as [s|s|s pl e|s m e b]; cbn in A; try discriminate A; injection A as ->; reflexivity).
      rewrite E. split; [discriminate|]. cbn [order]. split; [rewrite Rmax_right; [reflexivity|lra]|pose proof (bpow_gt_0 radix2 128); lra]. }
  destruct v as [s|s|s pl e|s m e b]; [apply Fin; reflexivity| |exfalso; apply N; reflexivity|apply Fin; reflexivity].
  destruct s; [|exfalso; apply NI; reflexivity]. destruct top as [s'|s'|s' pl' e'|s' m' e' b']; try discriminate Nt; (split; [discriminate|]; cbn [order rest fsub b32_minus Bminus]; split; [reflexivity|]; change (- bpow radix2 128 <= 0); pose proof (bpow_gt_0 radix2 128); lra).
Qed.
Lemma take_away_self : forall x, is_number x -> is_number (fsub x x) /\ number (fsub x x) = 0.
Proof.
  intros x N. destruct (fsub_correct x x N N) as [V Fi]. { rewrite Rminus_diag_eq, rnd_0, Rabs_R0 by reflexivity. apply bpow_gt_0. }
  split; [exact Fi|]. unfold number. rewrite V, Rminus_diag_eq by reflexivity. apply rnd_0.
Qed.
Lemma rest_monotone : forall top v w, ~ is_NaN v -> ~ is_NaN w -> v <> plus_infinity -> w <> plus_infinity -> order v <= order w -> rest top v <= rest top w.
Proof.
  intros top v w Nv Nw Iv Iw L. assert (B : forall x, is_number x -> rest top x = Rmax (rnd (order x - top)) (- max32)) by (intros [s|s|s pl e|s m e b] H; try discriminate H; reflexivity).
  assert (C : forall x, ~ is_NaN x -> x <> plus_infinity -> x = minus_infinity \/ is_number x) by (intros [s|[|]|s pl e|s m e b] H1 H2; [right; reflexivity|left; reflexivity|exfalso; apply H2; reflexivity|exfalso; apply H1; reflexivity|right; reflexivity]).
  destruct (C v Nv Iv) as [->|Fv]; [|destruct (C w Nw Iw) as [->|Fw]].
  - change (- max32 <= rest top w). destruct (C w Nw Iw) as [->|Fw]; [apply Rle_refl|]. rewrite B by exact Fw. apply Rmax_r.
  - exfalso. rewrite (order_number v Fv) in L. pose proof (val_lt_max v) as M. apply Rabs_def2 in M. change (val v <= - max32) in L. lra.
  - rewrite !B by assumption. apply Rle_max_compat_r. apply rnd_le. lra.
Qed.
Lemma rest_top : forall x, is_number x -> rest (number x) x = 0.
Proof. intros x N. destruct x as [s|s|s pl e|s m e b]; try discriminate N; unfold rest; rewrite Rminus_diag_eq, rnd_0 by reflexivity; apply Rmax_left; pose proof (bpow_gt_0 radix2 128); lra. Qed.

(** ** Softmax *)
Lemma transform_tensor : forall g t n m K f, is_tensor t n m K f -> is_tensor (transform g t) n m K (fun r c k => g (f r c k)).
Proof. intros g t n m K f (H1 & H2 & H3 & H). repeat split; try assumption. intros i j l Hi Hj Hl. cbn [transform get]. rewrite H by assumption. reflexivity. Qed.
Lemma float_elements_map : forall {A B} n m K (f : nat -> nat -> nat -> A) (g : A -> B), elements n m K (fun r c k => g (f r c k)) = map g (elements n m K f).
Proof.
  intros A B n m K f g. unfold elements. rewrite concat_map, map_map. f_equal. apply map_ext. intros k.
  rewrite concat_map, map_map. f_equal. apply map_ext. intros r. now rewrite map_map.
Qed.
Definition top_of (l : list F) : F := fold_left std_max l minus_infinity.
Definition denominator (e : F -> F) (l : list F) : F := narrow (fold_left step64 (map (fun v => e (fsub v (top_of l))) l) (B754_zero 53 1024 false)).
Lemma float_softmax_is : forall lib t n m K f, is_tensor t n m K f ->
  exists y, float_softmax lib t = Ok y /\ is_tensor y n m K (fun r c k => fdiv (expf lib (fsub (f r c k) (top_of (elements n m K f)))) (denominator (expf lib) (elements n m K f))).
Proof.
  intros lib t n m K f Ht. set (l := elements n m K f). assert (Em : Reduce_Model.max t = Ok (top_of l)) by (unfold Reduce_Model.max; now rewrite (Reduce_Proofs.scan_fold t n m K f std_max _ _ Ht)).
  unfold float_softmax. rewrite Em. cbn [obind]. pose proof (transform_tensor (expf lib) _ _ _ _ _ (transform_tensor (fun v => fsub v (top_of l)) _ _ _ _ _ Ht)) as Hn. cbv beta in Hn.
  unfold float_sum. rewrite (Reduce_Proofs.scan_fold _ n m K _ step64 _ _ Hn) by reflexivity. cbn [obind]. eexists. split; [reflexivity|].
  rewrite (float_elements_map n m K f (fun v => expf lib (fsub v (top_of l)))). fold l. apply (transform_tensor (fun v => fdiv v (denominator (expf lib) l)) _ _ _ _ _ Hn).
Qed.
Section Workable.
Context (e : F -> F) (E : exponential_like e) (l : list F) (W : workable l).
Lemma all_numbers : filter Reduce_Spec.number l = l.
Proof. destruct W as [W1 _]. clear - W1. induction l as [|x k IH]; [reflexivity|]. cbn [filter]. rewrite (proj1 (not_NaN x) (proj1 (W1 x (or_introl eq_refl)))). f_equal. apply IH. intros y Hy. apply W1. now right. Qed.
Lemma top_is : In (top_of l) l /\ is_number (top_of l) /\ forall x, In x l -> order x <= number (top_of l).
Proof.
  destruct W as [W1 (x0 & I0 & N0)]. pose proof (Reduce_Proofs.fold_max_largest l) as L. rewrite all_numbers in L. destruct L as [I L]; [intros ->; destruct I0|]. change (fold_left std_max l (infinity_ true)) with (top_of l) in *.
  assert (N : is_number (top_of l)).
  { destruct (W1 _ I) as [H1 H2]. specialize (L x0 I0). rewrite (order_number x0 N0) in L. pose proof (val_lt_max x0) as M. apply Rabs_def2 in M. fold (number x0) in M. destruct (top_of l) as [s|[|]|s pl q|s m q b]; try reflexivity; [change (number x0 <= - max32) in L; lra|exfalso; apply H2; reflexivity|exfalso; apply H1; reflexivity]. }
  split; [exact I|]. split; [exact N|]. intros x Hx. rewrite <- (order_number _ N). now apply L.
Qed.
Notation part := (fun v => e (fsub v (top_of l))).
Lemma part_fraction : forall v, In v l -> fraction (part v).
Proof.
  intros v Hv. destruct top_is as (I & N & L). destruct W as [W1 _]. destruct (W1 v Hv) as [H1 H2]. destruct (take_away v (top_of l) H1 H2 N (L v Hv)) as (A1 & _ & A3). destruct E as (_ & E2 & E3 & _). cbv beta.
  apply fraction_order; [apply E2; exact A1|]. split; [apply E2; exact A1|now apply E3].
Qed.
Lemma part_top : number (part (top_of l)) = 1.
Proof. destruct top_is as (I & N & L). destruct (take_away_self _ N) as [A1 A2]. destruct E as (_ & _ & _ & E4). apply (E4 _ A1 A2). Qed.
Lemma sum_of_parts : let s := fold_left step64 (map part l) (B754_zero 53 1024 false) in finite64 s = true /\ 1 <= val64 s <= ceiling /\
  total (fun v => number (part v)) l * (1 - double_error) ^ length l <= val64 s <= total (fun v => number (part v)) l * (1 + double_error) ^ length l.
Proof.
  cbv zeta. destruct (add_fractions (map part l) (B754_zero 53 1024 false) eq_refl) as (F1 & B1 & X1 & T1).
  - cbn [B2R]. split; [lra|apply bpow_ge_0].
  - apply Forall_forall. intros x Hx. apply in_map_iff in Hx as (v & <- & Hv). now apply part_fraction.
  - split; [exact F1|]. destruct top_is as (I & _ & _). split; [split; [|apply B1]|].
    + rewrite <- part_top. apply X1. apply in_map_iff. exists (top_of l). auto.
    + rewrite map_length in T1. cbn [B2R] in T1. rewrite !Rplus_0_l in T1. assert (Q : forall k, total number (map part k) = total (fun v => number (part v)) k) by (unfold total; induction k as [|x k IH]; [reflexivity|]; cbn [map fold_right]; rewrite IH; reflexivity). now rewrite Q in T1.
Qed.
Lemma denominator_is : is_number (denominator e l) /\ 1 <= number (denominator e l) /\ exists s h, number (denominator e l) = s * (1 + h) /\ Rabs h <= unit_error /\ 1 <= s /\
  total (fun v => number (part v)) l * (1 - double_error) ^ length l <= s <= total (fun v => number (part v)) l * (1 + double_error) ^ length l.
Proof.
  destruct sum_of_parts as (F1 & [B1 B2] & T1). cbv zeta in *. set (s := fold_left step64 (map part l) (B754_zero 53 1024 false)) in *.
  assert (R1 : 1 <= rnd (val64 s)) by (apply rnd_ge_F; [apply F32_1|exact B1]). assert (R2 : rnd (val64 s) <= ceiling) by (apply rnd_le_F; [apply F32_bpow; lia|exact B2]).
  destruct (narrow_is s F1) as [N V]. { rewrite Rabs_pos_eq by lra. eapply Rle_lt_trans; [exact R2|apply bpow_lt; lia]. }
  change (denominator e l) with (narrow s). split; [exact N|]. rewrite V. split; [exact R1|].
  destruct (relative_error_N_FLT_ex radix2 (-149) 24 eq_refl (fun z => negb (Z.even z)) (val64 s)) as (h & Hh & Eh). { rewrite Rabs_pos_eq by lra. eapply Rle_trans; [|exact B1]. change 1 with (bpow radix2 0). apply bpow_le. lia. }
  rewrite <- unit_is in Hh. exists (val64 s), h. split; [exact Eh|]. split; [exact Hh|]. split; [exact B1|exact T1].
Qed.
Lemma probability_is : forall v, In v l -> is_number (fdiv (part v) (denominator e l)) /\ number (fdiv (part v) (denominator e l)) = rnd (number (part v) / number (denominator e l)) /\ 0 <= number (fdiv (part v) (denominator e l)) <= 1.
Proof.
  intros v Hv. destruct denominator_is as (N & D1 & _). destruct (part_fraction v Hv) as [Np [P0 P1]]. cbv beta in *. set (p := e (fsub v (top_of l))) in *. set (d := denominator e l) in *.
  assert (Q0 : 0 <= number p / number d) by (apply Rmult_le_pos; [lra|left; apply Rinv_0_lt_compat; lra]).
  assert (Q1 : number p / number d <= 1) by (apply (Rmult_le_reg_r (number d)); [lra|]; unfold Rdiv; rewrite Rmult_assoc, Rinv_l by lra; lra).
  assert (B : 0 <= rnd (number p / number d) <= 1) by (split; [now apply rnd_ge0|apply rnd_le_F; [apply F32_1|exact Q1]]).
  destruct (fdiv_correct p d Np) as [V Fi]; [fold (number d); lra| |].
  - fold (number p) (number d). rewrite Rabs_pos_eq by lra. eapply Rle_lt_trans; [apply B|]. change 1 with (bpow radix2 0). apply bpow_lt. lia.
  - fold (number p) (number d) (number (fdiv p d)) in V. split; [exact Fi|]. split; [exact V|]. rewrite V. exact B.
Qed.
Lemma probability_monotone : monotone e -> forall v w, In v l -> In w l -> order v <= order w -> number (fdiv (part v) (denominator e l)) <= number (fdiv (part w) (denominator e l)).
Proof.
  intros M v w Hv Hw L. destruct (probability_is v Hv) as (_ & -> & _). destruct (probability_is w Hw) as (_ & -> & _). apply rnd_le. destruct denominator_is as (_ & D1 & _). unfold Rdiv. apply Rmult_le_compat_r; [left; apply Rinv_0_lt_compat; lra|].
  destruct top_is as (I & N & T). destruct W as [W1 _]. destruct (W1 v Hv) as [V1 V2]. destruct (W1 w Hw) as [W2 W3].
  destruct (take_away v (top_of l) V1 V2 N (T v Hv)) as (A1 & A2 & _). destruct (take_away w (top_of l) W2 W3 N (T w Hw)) as (B1 & B2 & _).
  destruct (part_fraction v Hv) as [Nv _]. destruct (part_fraction w Hw) as [Nw _]. rewrite <- (order_number _ Nv), <- (order_number _ Nw). apply M; [exact A1|exact B1|]. rewrite A2, B2. now apply rest_monotone.
Qed.
(** The probabilities add up to about 1. *)
Lemma probabilities_sum : (1 - unit_error) / ((1 + unit_error) * (1 + double_error) ^ length l) - INR (length l) * tiny <= total (fun v => number (fdiv (part v) (denominator e l))) l <= (1 + unit_error) / ((1 - unit_error) * (1 - double_error) ^ length l) + INR (length l) * tiny.
Proof.
  destruct denominator_is as (N & D1 & s & h & Ed & Hh & S1 & T0 & T1). set (d := number (denominator e l)) in *. set (T := total (fun v => number (part v)) l) in *. set (n := length l) in *.
  pose proof unit_pos as U. pose proof unit_small as U'. pose proof unit64_pos as V. pose proof unit64_small as V'. pose proof tiny_pos as Y.
  assert (Q : forall k, (forall v, In v k -> In v l) -> (1 - unit_error) * (total (fun v => number (part v)) k / d) - INR (length k) * tiny <= total (fun v => number (fdiv (part v) (denominator e l))) k <= (1 + unit_error) * (total (fun v => number (part v)) k / d) + INR (length k) * tiny).
  { induction k as [|v k IH]; intros Hk; [cbn [total fold_right length INR]; unfold Rdiv; rewrite Rmult_0_l; lra|]. specialize (IH (fun v H => Hk v (or_intror H))). cbn [total fold_right length]. fold (total (fun v => number (part v)) k). fold (total (fun v => number (fdiv (part v) (denominator e l))) k). rewrite S_INR.
    destruct (probability_is v (Hk v (or_introl eq_refl))) as (_ & Ep & _). rewrite Ep. fold d. destruct (part_fraction v (Hk v (or_introl eq_refl))) as [_ [P0 _]]. cbv beta in *.
    pose proof (rounded_error (number (e (fsub v (top_of l))) / d)) as R. assert (Z : 0 <= number (e (fsub v (top_of l))) / d) by (apply Rmult_le_pos; [lra|left; apply Rinv_0_lt_compat; lra]). rewrite (Rabs_pos_eq (_ / d)) in R by exact Z. apply Rabs_le_inv in R.
    set (a := number (e (fsub v (top_of l)))) in *. set (b := total (fun v => number (e (fsub v (top_of l)))) k) in *. replace ((a + b) / d) with (a / d + b / d) by (unfold Rdiv; ring). lra. }
  destruct (Q l (fun v H => H)) as [Q0 Q1]. fold T n in Q0, Q1. clear Q. apply Rabs_le_inv in Hh.
  assert (P0 : 0 < (1 - double_error) ^ n) by (apply pow_lt; lra). assert (P1 : 0 < (1 + double_error) ^ n) by (apply pow_lt; lra). set (p0 := (1 - double_error) ^ n) in *. set (p1 := (1 + double_error) ^ n) in *.
  assert (Tp : 0 < T) by (apply (Rmult_lt_reg_r p1); [exact P1|rewrite Rmult_0_l; lra]).
  split.
  - eapply Rle_trans; [|exact Q0]. apply Rplus_le_compat_r. unfold Rdiv. apply Rmult_le_compat_l; [lra|]. apply (Rmult_le_reg_r d); [lra|]. rewrite Rmult_assoc, Rinv_l by lra. rewrite Rmult_1_r, Ed.
    apply (Rmult_le_reg_l ((1 + unit_error) * p1)); [apply Rmult_lt_0_compat; lra|]. rewrite <- Rmult_assoc, Rinv_r by (apply Rmult_integral_contrapositive; lra). rewrite Rmult_1_l.
    apply Rle_trans with (T * p1 * (1 + unit_error)); [apply Rmult_le_compat; lra|right; ring].
  - eapply Rle_trans; [exact Q1|]. apply Rplus_le_compat_r. unfold Rdiv. apply Rmult_le_compat_l; [lra|]. apply (Rmult_le_reg_r d); [lra|]. rewrite Rmult_assoc, Rinv_l by lra. rewrite Rmult_1_r, Ed.
    apply (Rmult_le_reg_l ((1 - unit_error) * p0)); [apply Rmult_lt_0_compat; lra|]. rewrite <- Rmult_assoc, Rinv_r by (apply Rmult_integral_contrapositive; lra). rewrite Rmult_1_l.
    apply Rle_trans with (T * p0 * (1 - unit_error)); [right; ring|apply Rmult_le_compat; [apply Rmult_le_pos; lra|lra|lra|lra]].
Qed.
End Workable.
