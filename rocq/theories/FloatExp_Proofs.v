(** The correctly rounded exponential function is one the theorems about predictions in [float] apply to. *)
From Coq Require Import List Arith Bool ZArith Reals Lia Lra.
From Flocq Require Import Core Relative Plus_error IEEE754.BinarySingleNaN IEEE754.Binary IEEE754.Bits.
From Verif Require Import Outcome Tensor_Model Tensor_Spec F32_Model F32_Proofs Reduce_Model Activation_Model FloatNet_Model FloatNet_Spec FloatNet_Proofs FloatSoft_Proofs FloatAct_Proofs.
From Verif Require Reduce_Spec Reduce_Proofs.
Import ListNotations.
Local Open Scope R_scope.

(** The [float] nearest to a number that is not negative. *)
Definition nearest (r : R) : F := binary_normalize 24 128 prec_ok emax_ok mode_NE (Ztrunc (scaled_mantissa radix2 (FLT_exp (3 - 128 - 24) 24) (rnd r))) (cexp radix2 (FLT_exp (3 - 128 - 24) 24) (rnd r)) false.
Definition rounded_exp (x : F) : F :=
  match x with
  | B754_nan _ _ _ _ _ => nan32
  | B754_infinity _ _ true => float0
  | B754_infinity _ _ false => plus_infinity
  | _ => nearest (exp (number x))
  end.
Lemma nearest_is : forall r, 0 <= r -> ~ is_NaN (nearest r) /\ order (nearest r) = Rmin (rnd r) max32 /\ (rnd r < max32 -> is_number (nearest r)).
Proof.
  intros r H. pose proof (rnd_ge0 r H) as P. unfold nearest. set (m := Ztrunc _). set (c := cexp _ _ _).
  assert (EqF : F2R (Float radix2 m c) = rnd r). { symmetry. apply (generic_format_round radix2 (FLT_exp (3 - 128 - 24) 24) ZnearestE r). }
  pose proof (binary_normalize_correct 24 128 prec_ok emax_ok mode_NE m c false) as C. cbn [round_mode] in C. rewrite EqF in C. change (round radix2 (FLT_exp (3 - 128 - 24) 24) ZnearestE (rnd r)) with (rnd (rnd r)) in C. rewrite (rnd_id (rnd r)) in C by (apply generic_format_round; [apply FLT_exp_valid; reflexivity|apply valid_rnd_N]).
  rewrite (Rabs_pos_eq _ P) in C. destruct (Rlt_or_le (rnd r) max32) as [B|B].
  - rewrite Rlt_bool_true in C by exact B. destruct C as (V & Fi & _). fold (binary_normalize 24 128 prec_ok emax_ok mode_NE m c false) in *. set (z := binary_normalize 24 128 prec_ok emax_ok mode_NE m c false) in *. change (is_number z) in Fi. split; [now apply number_not_NaN|]. rewrite (order_number _ Fi). split; [|intros _; exact Fi]. rewrite Rmin_left by lra. exact V.
  - rewrite Rlt_bool_false in C by exact B. set (z := binary_normalize 24 128 prec_ok emax_ok mode_NE m c false) in *. rewrite Rlt_bool_false in C by exact P.
    assert (Eq : z = plus_infinity) by (clear - C; clearbody z; destruct z as [s|s|s pl e|s q e b]; cbn in C; try discriminate C; injection C as ->; reflexivity). rewrite Eq. split; [discriminate|]. split; [rewrite Rmin_right by exact B; reflexivity|intros Q; lra].
Qed.
Lemma rounded_exp_is : forall x, is_number x -> rounded_exp x = nearest (exp (number x)).
Proof. intros [s|s|s pl e|s m e b] H; try discriminate H; reflexivity. Qed.
Lemma exp_low : forall x, ~ is_NaN x -> ~ is_NaN (rounded_exp x) /\ order (rounded_exp x) = (if Rlt_dec (order x) max32 then (if Rlt_dec (- max32) (order x) then Rmin (rnd (exp (order x))) max32 else 0) else max32).
Proof.
  intros x N. pose proof max_pos as P. destruct (infinite_or_number x N) as [Nx|[->| ->]].
  - rewrite (rounded_exp_is x Nx). destruct (nearest_is (exp (number x)) (Rlt_le _ _ (exp_pos _))) as (A & B & _). split; [exact A|]. rewrite B, (order_number _ Nx). pose proof (number_bounds x). destruct (Rlt_dec (number x) max32); [|lra]. destruct (Rlt_dec (- max32) (number x)); [reflexivity|lra].
  - split; [discriminate|]. change (order plus_infinity) with max32. destruct (Rlt_dec max32 max32); [lra|]. reflexivity.
  - split; [discriminate|]. change (order minus_infinity) with (- max32). destruct (Rlt_dec (- max32) max32); [|lra]. destruct (Rlt_dec (- max32) (- max32)); [lra|]. reflexivity.
Qed.
Theorem rounded_exp_monotone : monotone rounded_exp.
Proof.
  intros x y Nx Ny L. destruct (exp_low x Nx) as [_ ->]. destruct (exp_low y Ny) as [_ ->]. change (order x <= order y) in L. pose proof max_pos as P.
  assert (Q : forall w, 0 <= Rmin (rnd (exp w)) max32 <= max32) by (intros w; pose proof (rnd_ge0 (exp w) (Rlt_le _ _ (exp_pos _))); split; [apply Rmin_glb; lra|apply Rmin_r]).
  destruct (Rlt_dec (order y) max32) as [Ly|Ly]; [|destruct (Rlt_dec (order x) max32); [destruct (Rlt_dec (- max32) (order x)); [apply Q|lra]|lra]].
  destruct (Rlt_dec (order x) max32); [|lra]. destruct (Rlt_dec (- max32) (order x)); [|destruct (Rlt_dec (- max32) (order y)); [apply Q|lra]]. destruct (Rlt_dec (- max32) (order y)); [|lra].
  apply Rle_min_compat_r. apply rnd_le. destruct L as [L|L]; [left; now apply exp_increasing|rewrite L; lra].
Qed.
Theorem rounded_exp_like : exponential_like rounded_exp.
Proof.
  pose proof max_pos as P. assert (Q : forall w, 0 <= Rmin (rnd (exp w)) max32) by (intros w; pose proof (rnd_ge0 (exp w) (Rlt_le _ _ (exp_pos _))); apply Rmin_glb; lra).
  split; [|split; [|split]].
  - intros [s|s|s pl e|s m e b] H; try discriminate H. reflexivity.
  - intros x N. destruct (exp_low x N) as [A B]. split; [exact A|]. change (0 <= order (rounded_exp x)). rewrite B. destruct (Rlt_dec (order x) max32); [|lra]. destruct (Rlt_dec (- max32) (order x)); [apply Q|lra].
  - intros x N L. change (order x <= 0) in L. change (order (rounded_exp x) <= 1). destruct (exp_low x N) as [_ ->]. destruct (Rlt_dec (order x) max32); [|lra]. destruct (Rlt_dec (- max32) (order x)); [|lra]. eapply Rle_trans; [apply Rmin_l|]. apply rnd_le_F; [apply F32_1|]. rewrite <- exp_0. destruct L as [L|L]; [left; now apply exp_increasing|rewrite L; lra].
  - intros x N Z. rewrite (rounded_exp_is x N), Z, exp_0. destruct (nearest_is 1 ltac:(lra)) as (A & B & C). rewrite (rnd_id 1 F32_1) in *. specialize (C P). split; [exact C|]. rewrite (order_number _ C) in B. rewrite B. apply Rmin_left. lra.
Qed.
