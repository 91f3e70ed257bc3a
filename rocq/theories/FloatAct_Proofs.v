(** Proofs about NaN in softmax, and about the other activation functions in [float]. *)
From Coq Require Import List Arith Bool ZArith Reals Lia Lra.
From Flocq Require Import Core Relative Plus_error IEEE754.BinarySingleNaN IEEE754.Binary IEEE754.Bits.
From Verif Require Import Outcome Tensor_Model Tensor_Spec F32_Model F32_Proofs Reduce_Model Activation_Model FloatNet_Model FloatNet_Spec FloatNet_Proofs FloatSoft_Proofs.
From Verif Require Import Layer_Spec.
From Verif Require Reduce_Spec Reduce_Proofs Reduce_Props.
Import ListNotations.
Local Open Scope R_scope.

(** ** NaN *)
Lemma fsub_NaN : forall x y, is_NaN x -> is_NaN (fsub x y).
Proof. intros [s|s|s pl e|s m e b] y H; try discriminate H. destruct y; reflexivity. Qed.
Lemma fdiv_NaN : forall x y, is_NaN y -> is_NaN (fdiv x y).
Proof. intros x [s|s|s pl e|s m e b] H; try discriminate H. destruct x; reflexivity. Qed.
Lemma infinite_NaN : forall s, is_NaN (fsub (B754_infinity 24 128 s) (B754_infinity 24 128 s)).
Proof. intros []; reflexivity. Qed.
Lemma narrow_NaN : forall x, is_nan 53 1024 x = true -> is_NaN (narrow x).
Proof. intros [s|s|s pl e|s m e b] H; try discriminate H. reflexivity. Qed.
Lemma widen_NaN : forall x, is_NaN x -> is_nan 53 1024 (widen x) = true.
Proof. intros [s|s|s pl e|s m e b] H; try discriminate H. reflexivity. Qed.
Lemma add64_NaN : forall x y, is_nan 53 1024 x = true \/ is_nan 53 1024 y = true -> is_nan 53 1024 (add64 x y) = true.
Proof. intros [s|s|s pl e|s m e b] [s'|s'|s' pl' e'|s' m' e' b'] [H|H]; try discriminate H; reflexivity. Qed.
Lemma sum_NaN : forall l a, is_nan 53 1024 a = true \/ Exists is_NaN l -> is_nan 53 1024 (fold_left step64 l a) = true.
Proof.
  induction l as [|x l IH]; intros a H; cbn [fold_left]; [destruct H as [H|H]; [exact H|inversion H]|]. apply IH. destruct H as [H|H]; [left; apply add64_NaN; now left|].
  inversion H; subst; [left; apply add64_NaN; right; now apply widen_NaN|now right].
Qed.
Lemma not_workable : forall l, ~ workable l -> l <> [] -> (exists x, In x l /\ (is_NaN x \/ x = plus_infinity)) \/ (forall x, In x l -> x = minus_infinity).
Proof.
  intros l W N. assert (C : forall x, (is_NaN x \/ x = plus_infinity) \/ (~ is_NaN x /\ x <> plus_infinity)). { intros [s|[|]|s pl e|s m e b]; [right|right|left; right|left; left|right]; try reflexivity; (split; [intros H; discriminate H|discriminate]). }
  destruct (Exists_dec (fun x => is_NaN x \/ x = plus_infinity) l) as [H|H].
  - intros [s|[|]|s pl e|s m e b]; [right|right|left|left|right]; try (intros [Q|Q]; discriminate Q); [right; reflexivity|left; reflexivity].
  - left. apply Exists_exists in H. exact H.
  - right. intros x Hx. assert (Q : forall y, In y l -> ~ is_NaN y /\ y <> plus_infinity). { intros y Hy. destruct (C y) as [Q|Q]; [|exact Q]. exfalso. apply H. apply Exists_exists. exists y. auto. }
    destruct (Q x Hx) as [Q1 Q2]. assert (F : ~ is_number x) by (intros F; apply W; split; [exact Q|]; exists x; auto). destruct x as [s|[|]|s pl e|s m e b]; [exfalso; apply F; reflexivity|reflexivity|exfalso; apply Q2; reflexivity|exfalso; apply Q1; reflexivity|exfalso; apply F; reflexivity].
Qed.
Lemma top_only_minus : forall l, (forall x, In x l -> x = minus_infinity) -> top_of l = minus_infinity.
Proof. intros l H. unfold top_of. induction l as [|x l IH]; [reflexivity|]. cbn [fold_left]. rewrite (H x (or_introl eq_refl)). change (std_max minus_infinity minus_infinity) with minus_infinity. apply IH. intros y Hy. apply H. now right. Qed.
Lemma top_plus : forall l, In plus_infinity l -> top_of l = plus_infinity.
Proof.
  intros l H. destruct (Reduce_Proofs.fold_max_spec l (infinity_ true) eq_refl) as (H1 & _ & _ & H4). apply Reduce_Proofs.order_pos_inf; [exact H1|]. apply H4. apply filter_In. split; [exact H|reflexivity].
Qed.
Lemma some_NaN : forall e l, exponential_like e -> l <> [] -> ~ workable l -> Exists is_NaN (map (fun v => e (fsub v (top_of l))) l).
Proof.
  intros e l (E1 & _) N W. apply Exists_exists. destruct (not_workable l W N) as [(x & Hx & [Nx|Px])|A].
  - exists (e (fsub x (top_of l))). split; [apply in_map_iff; exists x; auto|]. apply E1. now apply fsub_NaN.
  - subst x. exists (e (fsub plus_infinity (top_of l))). split; [apply in_map_iff; exists plus_infinity; auto|]. apply E1. rewrite (top_plus l Hx). reflexivity.
  - destruct l as [|x l]; [contradiction|]. pose proof (A x (or_introl eq_refl)) as ->. exists (e (fsub minus_infinity (top_of (minus_infinity :: l)))). split; [now left|]. apply E1. rewrite (top_only_minus _ A). reflexivity.
Qed.

(** ** One operation, infinities included *)
Lemma NaN_dec : forall x, {is_NaN x} + {~ is_NaN x}.
Proof. intros [s|s|s pl e|s m e b]; [right|right|left|right]; try reflexivity; discriminate. Defined.
Lemma infinite_or_number : forall x, ~ is_NaN x -> is_number x \/ x = plus_infinity \/ x = minus_infinity.
Proof. intros [s|[|]|s pl e|s m e b] H; auto; [left; reflexivity|exfalso; apply H; reflexivity|left; reflexivity]. Qed.
Lemma number_bounds : forall x, - max32 < number x < max32.
Proof. intros x. pose proof (val_lt_max x) as B. apply Rabs_def2 in B. unfold number. lra. Qed.
Lemma max_pos : 1 < max32.
Proof. change 1 with (bpow radix2 0). apply bpow_lt. lia. Qed.
Lemma float1_is : is_number float1 /\ number float1 = 1.
Proof. split; [reflexivity|]. unfold number, float1. apply (proj1 (of_Z_correct 1 ltac:(rewrite rnd_id by apply F32_1; rewrite Rabs_R1; apply max_pos))) || (destruct (of_Z_correct 1) as [V _]; [rewrite rnd_id by apply F32_1; rewrite Rabs_R1; apply max_pos|]; rewrite V; apply rnd_id; apply F32_1). Qed.
Lemma small_is : forall z, (Z.abs z <= 2 ^ 24)%Z -> is_number (of_Z z) /\ number (of_Z z) = IZR z.
Proof.
  intros z H. destruct (of_Z_correct z) as [V Fi].
  - rewrite (rnd_id _ (F32_Z z H)). rewrite <- abs_IZR. apply Rle_lt_trans with (IZR (2 ^ 24)); [now apply IZR_le|]. change (IZR (2 ^ 24)) with (bpow radix2 24). apply bpow_lt. lia.
  - split; [exact Fi|]. unfold number. rewrite V. apply rnd_id. now apply F32_Z.
Qed.
(** Minus a [float]. *)
Lemma minus_is : forall x, ~ is_NaN x -> ~ is_NaN (fmul (of_Z (-1)) x) /\ order (fmul (of_Z (-1)) x) = - order x.
Proof.
  intros x N. destruct (small_is (-1) ltac:(lia)) as [Nm Vm]. destruct (infinite_or_number x N) as [Nx|[->| ->]].
  - destruct (fmul_correct (of_Z (-1)) x Nm Nx) as [V Fi]; fold (number (of_Z (-1))) (number x) in *; rewrite Vm in *; replace (-1 * number x) with (- number x) in * by ring; rewrite rnd_id in * by (apply generic_format_opp; apply val_format).
    + rewrite Rabs_Ropp. apply val_lt_max.
    + split; [now apply number_not_NaN|]. rewrite (order_number _ Fi), (order_number _ Nx). exact V.
  - split; [discriminate|]. reflexivity.
  - split; [discriminate|]. cbn [order]. change (max32 = - - max32). ring.
Qed.
(** Twice a [float]. *)
Lemma twice_is : forall x, ~ is_NaN x -> ~ is_NaN (fmul (of_Z 2) x) /\ order (fmul (of_Z 2) x) = match x with B754_infinity _ _ true => - max32 | B754_infinity _ _ false => max32 | _ => Rmax (Rmin (rnd (2 * number x)) max32) (- max32) end.
Proof.
  intros x N. destruct (small_is 2 ltac:(lia)) as [Nm Vm]. destruct (infinite_or_number x N) as [Nx|[->| ->]]; [|split; [discriminate|reflexivity]|split; [discriminate|reflexivity]].
  assert (G : ~ is_NaN (fmul (of_Z 2) x) /\ order (fmul (of_Z 2) x) = Rmax (Rmin (rnd (2 * number x)) max32) (- max32)); [|destruct x as [s|s|s pl e|s m e b]; try discriminate Nx; exact G].
  pose proof (Bmult_correct 24 128 eq_refl eq_refl binop_nan_pl32 mode_NE (of_Z 2) x) as C. cbn [round_mode] in C. change (val (of_Z 2)) with (number (of_Z 2)) in C. change (val x) with (number x) in C. rewrite Vm in C. pose proof max_pos as P.
  destruct (Rlt_or_le (Rabs (rnd (2 * number x))) max32) as [B|B].
  - rewrite Rlt_bool_true in C by exact B. destruct C as (V & Fi & _). change (number (fmul (of_Z 2) x) = rnd (2 * number x)) in V. unfold is_number in Nm, Nx. rewrite Nm, Nx in Fi. change (is_number (fmul (of_Z 2) x)) in Fi.
    split; [now apply number_not_NaN|]. rewrite (order_number _ Fi), V. apply Rabs_def2 in B. rewrite Rmin_left, Rmax_left by lra. reflexivity.
  - rewrite Rlt_bool_false in C by exact B. change (B2FF 24 128 (fmul (of_Z 2) x) = binary_overflow 24 128 mode_NE (xorb (Bsign 24 128 (of_Z 2)) (Bsign 24 128 x))) in C. change (Bsign 24 128 (of_Z 2)) with false in C. rewrite xorb_false_l in C.
    assert (Eq : fmul (of_Z 2) x = B754_infinity 24 128 (Bsign 24 128 x)) by (clear - C; destruct (fmul (of_Z 2) x) as [s|s|s pl e|s m e b]; cbn in C; try discriminate C; injection C as ->; reflexivity).
    rewrite Eq. split; [discriminate|]. destruct (Bsign 24 128 x) eqn:Sx; cbn [order].
    + assert (number x <= 0) by (clear - Sx Nx; destruct x as [s|s|s pl e|s m e b]; try discriminate Nx; cbn in Sx |- *; [lra|subst s; apply F2R_le_0; cbn; lia]). assert (rnd (2 * number x) <= 0) by (apply rnd_le_F; [apply F32_0|lra]). rewrite Rabs_left1 in B by assumption. rewrite Rmin_left, Rmax_right by lra. reflexivity.
    + assert (0 <= number x) by (clear - Sx Nx; destruct x as [s|s|s pl e|s m e b]; try discriminate Nx; cbn in Sx |- *; [lra|subst s; apply F2R_ge_0; cbn; lia]). assert (0 <= rnd (2 * number x)) by (apply rnd_ge0; lra). rewrite Rabs_pos_eq in B by assumption. rewrite Rmin_right, Rmax_left by lra. reflexivity.
Qed.

(** ** Sigmoid: one over one plus a number *)
(** One over one plus [z]. *)
Definition one_over (z : F) : F := fdiv float1 (fadd float1 z).
Definition one_over_at (w : R) : R := if Rlt_dec (rnd (1 + w)) max32 then rnd (1 / rnd (1 + w)) else 0.
Lemma one_plus_ge : forall w, 0 <= w -> 1 <= rnd (1 + w).
Proof. intros w H. apply rnd_ge_F; [apply F32_1|lra]. Qed.
Lemma one_over_le_1 : forall d, 1 <= d -> 0 <= 1 / d <= 1.
Proof. intros d H. split; [apply Rmult_le_pos; [lra|left; apply Rinv_0_lt_compat; lra]|]. apply (Rmult_le_reg_r d); [lra|]. unfold Rdiv. rewrite Rmult_assoc, Rinv_l by lra. lra. Qed.
Lemma fdiv_one : forall d, is_number d -> 1 <= number d -> is_number (fdiv float1 d) /\ number (fdiv float1 d) = rnd (1 / number d).
Proof.
  intros d N H. destruct float1_is as [N1 V1]. destruct (fdiv_correct float1 d N1) as [V Fi]; fold (number float1) (number d) in *; [lra| |split; [exact Fi|unfold number at 1; rewrite V, V1; reflexivity]].
  rewrite V1. pose proof (one_over_le_1 _ H) as B. rewrite Rabs_pos_eq by (apply rnd_ge0; lra). apply Rle_lt_trans with 1; [apply rnd_le_F; [apply F32_1|lra]|apply max_pos].
Qed.
Lemma one_over_is : forall z, ~ is_NaN z -> 0 <= order z -> is_number (one_over z) /\ number (one_over z) = (if Rlt_dec (order z) max32 then one_over_at (order z) else 0).
Proof.
  intros z N H. destruct float1_is as [N1 V1]. unfold one_over. pose proof max_pos as P. destruct (infinite_or_number z N) as [Nz|[->| ->]].
  - rewrite (order_number _ Nz) in *. destruct (Rlt_dec (number z) max32) as [_|C]; [|exfalso; apply C; apply number_bounds]. unfold one_over_at. pose proof (one_plus_ge _ H) as G.
    pose proof (Bplus_correct 24 128 eq_refl eq_refl binop_nan_pl32 mode_NE float1 z N1 Nz) as C. cbn [round_mode] in C. change (B2R 24 128 float1) with (number float1) in C. change (B2R 24 128 z) with (number z) in C. rewrite V1 in C.
    destruct (Rlt_dec (rnd (1 + number z)) max32) as [B|B].
    + rewrite Rlt_bool_true in C by (rewrite Rabs_pos_eq by (change (0 <= rnd (1 + number z)); lra); exact B). destruct C as (V & Fi & _). change (number (fadd float1 z) = rnd (1 + number z)) in V. change (is_number (fadd float1 z)) in Fi. rewrite <- V. apply fdiv_one; [exact Fi|rewrite V; exact G].
    + rewrite Rlt_bool_false in C by (rewrite Rabs_pos_eq by (change (0 <= rnd (1 + number z)); lra); apply Rnot_lt_le; exact B). destruct C as [C _]. change (B2FF 24 128 (fadd float1 z) = binary_overflow 24 128 mode_NE (Bsign 24 128 float1)) in C. change (Bsign 24 128 float1) with false in C.
      assert (Eq : fadd float1 z = plus_infinity) by (clear - C; destruct (fadd float1 z) as [s|s|s pl e|s m e b]; cbn in C; try discriminate C; injection C as ->; reflexivity). rewrite Eq. split; reflexivity.
  - change (order plus_infinity) with max32. destruct (Rlt_dec max32 max32) as [C|_]; [lra|]. split; reflexivity.
  - change (order minus_infinity) with (- max32) in H. lra.
Qed.
Lemma one_over_fraction : forall z, ~ is_NaN z -> 0 <= order z -> is_number (one_over z) /\ 0 <= number (one_over z) <= 1.
Proof.
  intros z N H. destruct (one_over_is z N H) as [Nn V]. split; [exact Nn|]. rewrite V. destruct (Rlt_dec (order z) max32); [|lra]. unfold one_over_at. destruct (Rlt_dec (rnd (1 + order z)) max32); [|lra]. pose proof (one_over_le_1 _ (one_plus_ge _ H)) as B. split; [apply rnd_ge0; lra|apply rnd_le_F; [apply F32_1|lra]].
Qed.
Lemma one_over_antitone : forall y z, ~ is_NaN y -> ~ is_NaN z -> 0 <= order y -> order y <= order z -> number (one_over z) <= number (one_over y).
Proof.
  intros y z Ny Nz H L. destruct (one_over_fraction y Ny H) as [_ B]. destruct (one_over_is z Nz ltac:(lra)) as [_ V]. rewrite V. destruct (Rlt_dec (order z) max32) as [Z|Z]; [|lra]. unfold one_over_at. destruct (Rlt_dec (rnd (1 + order z)) max32) as [Q|Q]; [|lra].
  destruct (one_over_is y Ny H) as [_ Vy]. rewrite Vy. destruct (Rlt_dec (order y) max32) as [Y|Y]; [|lra]. unfold one_over_at. assert (M : rnd (1 + order y) <= rnd (1 + order z)) by (apply rnd_le; lra). destruct (Rlt_dec (rnd (1 + order y)) max32) as [W|W]; [|lra].
  pose proof (one_plus_ge _ H) as G. apply rnd_le. unfold Rdiv. rewrite !Rmult_1_l. apply Rinv_le; lra.
Qed.
Lemma order_bounded : forall x, - max32 <= order x <= max32.
Proof. intros x. pose proof max_pos as P. pose proof (number_bounds x) as B. destruct x as [s|[|]|s pl e|s m e b]; [| change (- max32 <= - max32 <= max32)|change (- max32 <= max32 <= max32)| |]; try lra; exact (conj (Rlt_le _ _ (proj1 B)) (Rlt_le _ _ (proj2 B))). Qed.

Section Sigmoid.
Context (lib : library) (E : exponential_like (expf lib)).
Lemma sigmoid_fraction : forall x, ~ is_NaN x -> is_number (float_sigmoid lib x) /\ 0 <= number (float_sigmoid lib x) <= 1.
Proof. intros x N. destruct (minus_is x N) as [N' _]. destruct E as (_ & E2 & _). destruct (E2 _ N') as [Ne Oe]. exact (one_over_fraction _ Ne Oe). Qed.
Lemma sigmoid_monotone : monotone (expf lib) -> forall x y, ~ is_NaN x -> ~ is_NaN y -> order x <= order y -> number (float_sigmoid lib x) <= number (float_sigmoid lib y).
Proof.
  intros M x y Nx Ny L. destruct (minus_is x Nx) as [Nx' Ox]. destruct (minus_is y Ny) as [Ny' Oy]. destruct E as (_ & E2 & _). destruct (E2 _ Nx') as [Nex Oex]. destruct (E2 _ Ny') as [Ney Oey].
  apply one_over_antitone; [exact Ney|exact Nex|exact Oey|]. apply M; [exact Ny'|exact Nx'|]. rewrite Ox, Oy. lra.
Qed.
Lemma sigmoid_half : forall x, is_number x -> number x = 0 -> number (float_sigmoid lib x) = / 2.
Proof.
  intros x N Z. destruct (minus_is x (number_not_NaN x N)) as [N' O]. rewrite (order_number _ N), Z, Ropp_0 in O. destruct E as (_ & _ & _ & E4). 
  assert (Nm : is_number (fmul (of_Z (-1)) x)). { destruct (infinite_or_number _ N') as [Q|[Q|Q]]; [exact Q| |]; rewrite Q in O; pose proof max_pos as P; [change (order plus_infinity) with max32 in O|change (order minus_infinity) with (- max32) in O]; lra. }
  destruct (E4 _ Nm) as [Ne Ve]; [rewrite <- (order_number _ Nm); exact O|]. destruct (one_over_is (expf lib (fmul (of_Z (-1)) x)) (number_not_NaN _ Ne)) as [_ V]; [rewrite (order_number _ Ne), Ve; lra|].
  change (number (one_over (expf lib (fmul (of_Z (-1)) x))) = / 2). rewrite V, (order_number _ Ne), Ve. pose proof max_pos as P. destruct (Rlt_dec 1 max32); [|lra]. unfold one_over_at. replace (1 + 1) with 2 by ring. rewrite (rnd_id 2) by (apply (F32_Z 2); lia).
  assert (2 < max32) by (change 2 with (bpow radix2 1); apply bpow_lt; lia). destruct (Rlt_dec 2 max32); [|lra]. replace (1 / 2) with (bpow radix2 (-1)) by (change (bpow radix2 (-1)) with (/ 2); lra). rewrite rnd_id by (apply F32_bpow; lia). reflexivity.
Qed.
(** Twice a fraction, less one. *)
Lemma stretch_is : forall s, is_number s -> 0 <= number s <= 1 -> is_number (fsub (fmul (of_Z 2) s) float1) /\ number (fsub (fmul (of_Z 2) s) float1) = rnd (rnd (2 * number s) - 1) /\ -1 <= rnd (rnd (2 * number s) - 1) <= 1.
Proof.
  intros s N B. destruct (small_is 2 ltac:(lia)) as [N2 V2]. destruct float1_is as [N1 V1]. assert (P : 2 < max32) by (change 2 with (bpow radix2 1); apply bpow_lt; lia).
  assert (B2 : 0 <= rnd (2 * number s) <= 2) by (split; [apply rnd_ge0; lra|apply rnd_le_F; [apply (F32_Z 2); lia|lra]]).
  destruct (fmul_correct (of_Z 2) s N2 N) as [V Fi]; fold (number (of_Z 2)) (number s) in *; rewrite V2 in *; [rewrite Rabs_pos_eq by lra; lra|]. change (val (fmul (of_Z 2) s)) with (number (fmul (of_Z 2) s)) in V.
  assert (B3 : -1 <= rnd (rnd (2 * number s) - 1) <= 1) by (split; [apply rnd_ge_F; [apply (F32_Z (-1)); lia|lra]|apply rnd_le_F; [apply F32_1|lra]]).
  destruct (fsub_correct (fmul (of_Z 2) s) float1 Fi N1) as [V' Fi']; fold (number (fmul (of_Z 2) s)) (number float1) in *; rewrite V, V1 in *; [apply Rabs_def1; lra|]. split; [exact Fi'|]. split; [exact V'|exact B3].
Qed.
Lemma twice_monotone : forall x y, ~ is_NaN x -> ~ is_NaN y -> order x <= order y -> order (fmul (of_Z 2) x) <= order (fmul (of_Z 2) y).
Proof.
  intros x y Nx Ny L. destruct (twice_is x Nx) as [_ Ox]. destruct (twice_is y Ny) as [_ Oy]. pose proof max_pos as P. pose proof (order_bounded (fmul (of_Z 2) x)) as Bx. pose proof (order_bounded (fmul (of_Z 2) y)) as By.
  destruct (infinite_or_number x Nx) as [Fx|[->| ->]]; [|change (order plus_infinity) with max32 in L; destruct (infinite_or_number y Ny) as [Fy|[->| ->]]; [rewrite (order_number _ Fy) in L; pose proof (number_bounds y); lra|apply Rle_refl|change (order minus_infinity) with (- max32) in L; lra]|change (- max32 <= order (fmul (of_Z 2) y)); lra].
  destruct (infinite_or_number y Ny) as [Fy|[->| ->]]; [|change (order (fmul (of_Z 2) x) <= max32); lra|change (order minus_infinity) with (- max32) in L; rewrite (order_number _ Fx) in L; pose proof (number_bounds x); lra].
  rewrite (order_number _ Fx), (order_number _ Fy) in L. assert (Q : forall z, is_number z -> order (fmul (of_Z 2) z) = Rmax (Rmin (rnd (2 * number z)) max32) (- max32)) by (intros z Fz; destruct (twice_is z (number_not_NaN z Fz)) as [_ Oz]; rewrite Oz; destruct z as [s|s|s pl e|s m e b]; try discriminate Fz; reflexivity).
  rewrite (Q x Fx), (Q y Fy). apply Rle_max_compat_r. apply Rle_min_compat_r. apply rnd_le. lra.
Qed.
Lemma tanh_approx_is : forall x, ~ is_NaN x -> is_number (float_tanh_approx lib x) /\ -1 <= number (float_tanh_approx lib x) <= 1.
Proof. intros x N. destruct (twice_is x N) as [N2 _]. destruct (sigmoid_fraction _ N2) as [Ns Bs]. destruct (stretch_is _ Ns Bs) as (A & B & C). split; [exact A|]. change (number (float_tanh_approx lib x)) with (number (fsub (fmul (of_Z 2) (float_sigmoid lib (fmul (of_Z 2) x))) float1)). rewrite B. exact C. Qed.
Lemma tanh_approx_monotone : monotone (expf lib) -> forall x y, ~ is_NaN x -> ~ is_NaN y -> order x <= order y -> number (float_tanh_approx lib x) <= number (float_tanh_approx lib y).
Proof.
  intros M x y Nx Ny L. destruct (twice_is x Nx) as [Nx2 _]. destruct (twice_is y Ny) as [Ny2 _]. destruct (sigmoid_fraction _ Nx2) as [Nsx Bsx]. destruct (sigmoid_fraction _ Ny2) as [Nsy Bsy]. destruct (stretch_is _ Nsx Bsx) as (_ & Ex & _). destruct (stretch_is _ Nsy Bsy) as (_ & Ey & _).
  change (number (fsub (fmul (of_Z 2) (float_sigmoid lib (fmul (of_Z 2) x))) float1) <= number (fsub (fmul (of_Z 2) (float_sigmoid lib (fmul (of_Z 2) y))) float1)). rewrite Ex, Ey. pose proof (sigmoid_monotone M _ _ Nx2 Ny2 (twice_monotone x y Nx Ny L)) as Q. apply rnd_le. assert (rnd (2 * number (float_sigmoid lib (fmul (of_Z 2) x))) <= rnd (2 * number (float_sigmoid lib (fmul (of_Z 2) y)))) by (apply rnd_le; lra). lra.
Qed.
End Sigmoid.

(** ** ReLU *)
Lemma relu_is : forall x, ~ is_NaN x -> ~ is_NaN (float_relu x) /\ order (float_relu x) = Rmax (order x) 0.
Proof.
  intros x N. destruct float0_is as [N0 V0]. unfold float_relu, std_max. destruct (infinite_or_number x N) as [Nx|[->| ->]].
  - destruct (flt x float0) eqn:C.
    + apply (flt_true x float0 Nx N0) in C. fold (number x) (number float0) in C. rewrite V0 in C. split; [now apply number_not_NaN|]. rewrite (order_number _ N0), (order_number _ Nx), V0, Rmax_right by lra. reflexivity.
    + assert (G : 0 <= number x). { destruct (Rlt_or_le (number x) 0) as [Q|Q]; [|exact Q]. exfalso. assert (T : flt x float0 = true) by (apply (flt_true x float0 Nx N0); fold (number x) (number float0); lra). congruence. }
      split; [exact N|]. rewrite (order_number _ Nx), Rmax_left by lra. reflexivity.
  - split; [discriminate|]. change (max32 = Rmax max32 0). pose proof max_pos. rewrite Rmax_left by lra. reflexivity.
  - change (flt minus_infinity float0) with true. cbv iota. split; [discriminate|]. change (order minus_infinity) with (- max32). rewrite (order_number _ N0), V0. pose proof max_pos. rewrite Rmax_right by lra. reflexivity.
Qed.
Lemma relu_NaN : forall x, is_NaN x -> is_NaN (float_relu x).
Proof. intros [s|s|s pl e|s m e b] H; try discriminate H. reflexivity. Qed.

(** ** Leaky ReLU *)
Lemma leak_value : number float_leak = 10737418 * bpow radix2 (-30).
Proof.
  unfold number, float_leak. pose proof (binary_normalize_correct 24 128 prec_ok emax_ok mode_NE 10737418 (-30) false) as C. cbn [round_mode] in C.
    assert (EqF : F2R (Float radix2 10737418 (-30)) = 10737418 * bpow radix2 (-30)) by reflexivity. rewrite EqF in C.
    assert (Fm : F32 (10737418 * bpow radix2 (-30))). { rewrite <- EqF. apply generic_format_FLT. exists (Float radix2 10737418 (-30)); [reflexivity|cbn; lia|cbn; lia]. }
    change (round radix2 (FLT_exp (3 - 128 - 24) 24) ZnearestE (10737418 * bpow radix2 (-30))) with (rnd (10737418 * bpow radix2 (-30))) in C. rewrite (rnd_id _ Fm) in C. rewrite Rlt_bool_true in C; [exact (proj1 C)|].
    rewrite Rabs_pos_eq by (apply Rmult_le_pos; [lra|apply bpow_ge_0]). apply Rlt_trans with (bpow radix2 24 * bpow radix2 (-30)); [apply Rmult_lt_compat_r; [apply bpow_gt_0|change (bpow radix2 24) with 16777216; lra]|rewrite <- bpow_plus; apply bpow_lt; lia].
Qed.
Lemma leak_is : is_number float_leak /\ 0 < number float_leak < / 64.
Proof.
  split; [reflexivity|]. rewrite leak_value. split; [apply Rmult_lt_0_compat; [lra|apply bpow_gt_0]|]. replace (/ 64) with (16777216 * bpow radix2 (-30)); [apply Rmult_lt_compat_r; [apply bpow_gt_0|lra]|]. change 16777216 with (bpow radix2 24). rewrite <- bpow_plus. change (bpow radix2 (24 + -30)) with (/ 64). reflexivity.
Qed.
Lemma times_zero : forall x, is_number x -> is_number (fmul float0 x) /\ number (fmul float0 x) = 0.
Proof. intros x N. destruct float0_is as [N0 V0]. destruct (fmul_correct float0 x N0 N) as [V Fi]; fold (number float0) (number x) in *; rewrite V0, Rmult_0_l, rnd_0 in *; [rewrite Rabs_R0; pose proof max_pos; lra|]. split; assumption. Qed.
Lemma times_one : forall x, is_number x -> is_number (fmul float1 x) /\ number (fmul float1 x) = number x.
Proof. intros x N. destruct float1_is as [N1 V1]. destruct (fmul_correct float1 x N1 N) as [V Fi]; fold (number float1) (number x) in *; rewrite V1, Rmult_1_l in *; rewrite (rnd_id (number x) (val_format x)) in *; [apply val_lt_max|]. split; assumption. Qed.
Lemma add_zero : forall x y, is_number x -> is_number y -> number x = 0 \/ number y = 0 -> is_number (fadd x y) /\ number (fadd x y) = number x + number y.
Proof.
  intros x y Nx Ny H. assert (Q : F32 (number x + number y) /\ Rabs (number x + number y) < max32) by (destruct H as [H|H]; rewrite H; rewrite ?Rplus_0_l, ?Rplus_0_r; split; try apply val_format; apply val_lt_max). destruct Q as [Q1 Q2].
  destruct (fadd_correct x y Nx Ny) as [V Fi]; fold (number x) (number y) in *; rewrite (rnd_id _ Q1) in *; [exact Q2|]. split; assumption.
Qed.
Lemma leaky_is : forall x, is_number x -> is_number (float_leaky x) /\ number (float_leaky x) = (if Rlt_dec (number x) 0 then rnd (number float_leak * number x) else number x).
Proof.
  intros x N. destruct float0_is as [N0 V0]. destruct leak_is as [Nl Bl]. pose proof (number_bounds x) as Bx.
  assert (Sm : Rabs (rnd (number float_leak * number x)) < max32). { destruct (Rle_lt_dec 0 (number x)) as [P|P].
    - rewrite Rabs_pos_eq by (apply rnd_ge0; apply Rmult_le_pos; lra). apply Rle_lt_trans with (number x); [|lra]. apply rnd_le_F; [apply val_format|]. rewrite <- (Rmult_1_l (number x)) at 2. apply Rmult_le_compat_r; lra.
    - assert (number x <= rnd (number float_leak * number x)) by (apply rnd_ge_F; [apply val_format|]; assert (0 <= (1 - number float_leak) * - number x) by (apply Rmult_le_pos; lra); lra). assert (rnd (number float_leak * number x) <= 0) by (apply rnd_le_F; [apply F32_0|]; assert (0 <= number float_leak * - number x) by (apply Rmult_le_pos; lra); lra). apply Rabs_def1; lra. }
  destruct (fmul_correct float_leak x Nl N Sm) as [Vm Fm]. fold (number float_leak) (number x) in Vm. change (val (fmul float_leak x)) with (number (fmul float_leak x)) in Vm.
  unfold float_leaky. destruct (Rlt_dec (number x) 0) as [C|C].
  - assert (T1 : flt x float0 = true) by (apply (flt_true x float0 N N0); fold (number x) (number float0); lra). assert (T2 : fge x float0 = false). { destruct (fge x float0) eqn:Q; [|reflexivity]. apply (fge_true x float0 N N0) in Q. fold (number x) (number float0) in Q. lra. }
    rewrite T1, T2. cbn [float_of_bool]. destruct (times_one _ Fm) as [A1 A2]. destruct (times_zero x N) as [B1 B2]. destruct (add_zero _ _ A1 B1 (or_intror B2)) as [S1 S2]. split; [exact S1|]. rewrite S2, A2, B2, Vm. ring.
  - assert (T1 : flt x float0 = false). { destruct (flt x float0) eqn:Q; [|reflexivity]. apply (flt_true x float0 N N0) in Q. fold (number x) (number float0) in Q. lra. } assert (T2 : fge x float0 = true) by (apply (fge_true x float0 N N0); fold (number x) (number float0); lra).
    rewrite T1, T2. cbn [float_of_bool]. destruct (times_zero _ Fm) as [A1 A2]. destruct (times_one x N) as [B1 B2]. destruct (add_zero _ _ A1 B1 (or_introl A2)) as [S1 S2]. split; [exact S1|]. rewrite S2, A2, B2. ring.
Qed.

(** ** The approximation of sigmoid *)
Lemma abs_is : forall x, is_number x -> is_number (Babs 24 128 unop_nan_pl32 x) /\ number (Babs 24 128 unop_nan_pl32 x) = Rabs (number x).
Proof. intros x N. unfold is_number, number. split; [rewrite is_finite_Babs; exact N|apply B2R_Babs]. Qed.
Lemma half_is : is_number float_half /\ number float_half = / 2.
Proof.
  split; [reflexivity|]. unfold number, float_half. pose proof (binary_normalize_correct 24 128 prec_ok emax_ok mode_NE 1 (-1) false) as C. cbn [round_mode] in C.
  assert (EqF : F2R (Float radix2 1 (-1)) = bpow radix2 (-1)) by (unfold F2R; cbn [Fnum Fexp]; ring). rewrite EqF in C. change (round radix2 (FLT_exp (3 - 128 - 24) 24) ZnearestE (bpow radix2 (-1))) with (rnd (bpow radix2 (-1))) in C. rewrite (rnd_id _ (F32_bpow (-1) ltac:(lia))) in C. rewrite Rlt_bool_true in C; [rewrite (proj1 C); reflexivity|]. rewrite Rabs_pos_eq by apply bpow_ge_0. apply bpow_lt. lia.
Qed.
Lemma approx_is : forall x, is_number x -> is_number (float_sigmoid_approx x) /\ 0 <= number (float_sigmoid_approx x) <= 1.
Proof.
  intros x N. destruct float1_is as [N1 V1]. destruct (abs_is x N) as [Na Va]. destruct half_is as [Nh Vh]. pose proof max_pos as P. assert (P2 : 2 < max32) by (change 2 with (bpow radix2 1); apply bpow_lt; lia).
  set (a := Babs 24 128 unop_nan_pl32 x) in *. pose proof (Rabs_pos (number x)) as Ax. rewrite <- Va in Ax. pose proof (one_plus_ge _ Ax) as G.
  assert (Q : is_number (fdiv x (fadd float1 a)) /\ -1 <= number (fdiv x (fadd float1 a)) <= 1).
  { pose proof (Bplus_correct 24 128 eq_refl eq_refl binop_nan_pl32 mode_NE float1 a N1 Na) as C. cbn [round_mode] in C. change (B2R 24 128 float1) with (number float1) in C. change (B2R 24 128 a) with (number a) in C. rewrite V1 in C.
    destruct (Rlt_dec (rnd (1 + number a)) max32) as [B|B].
    - rewrite Rlt_bool_true in C by (rewrite Rabs_pos_eq by (change (0 <= rnd (1 + number a)); lra); exact B). destruct C as (V & Fi & _). change (number (fadd float1 a) = rnd (1 + number a)) in V. change (is_number (fadd float1 a)) in Fi. set (d := number (fadd float1 a)) in *.
      assert (L : Rabs (number x) <= d) by (rewrite <- Va, V; apply rnd_ge_F; [apply val_format|lra]). assert (D1 : 1 <= d) by lra.
      assert (R1 : -1 <= number x / d <= 1). { apply Rabs_le_inv in L. split; apply (Rmult_le_reg_r d); try lra; unfold Rdiv; rewrite Rmult_assoc, Rinv_l by lra; lra. }
      assert (R2 : -1 <= rnd (number x / d) <= 1) by (split; [apply rnd_ge_F; [apply (F32_Z (-1)); lia|lra]|apply rnd_le_F; [apply F32_1|lra]]).
      destruct (fdiv_correct x (fadd float1 a) N) as [Vd Fd]; [change (d <> 0); lra|change (Rabs (rnd (number x / d)) < max32); apply Rabs_def1; lra|]. change (val (fdiv x (fadd float1 a)) = rnd (number x / d)) in Vd. split; [exact Fd|]. change (val (fdiv x (fadd float1 a))) with (number (fdiv x (fadd float1 a))) in Vd. rewrite Vd. exact R2.
    - rewrite Rlt_bool_false in C by (rewrite Rabs_pos_eq by (change (0 <= rnd (1 + number a)); lra); apply Rnot_lt_le; exact B). destruct C as [C _]. change (B2FF 24 128 (fadd float1 a) = binary_overflow 24 128 mode_NE (Bsign 24 128 float1)) in C. change (Bsign 24 128 float1) with false in C.
      assert (Eq : fadd float1 a = plus_infinity) by (clear - C; destruct (fadd float1 a) as [s|s|s pl e|s m e b]; cbn in C; try discriminate C; injection C as ->; reflexivity). rewrite Eq. destruct x as [s|s|s pl e|s m e b]; try discriminate N; (split; [reflexivity|change (-1 <= 0 <= 1); lra]). }
  destruct Q as [Nq Bq]. set (q := fdiv x (fadd float1 a)) in *.
  assert (R2 : 0 <= rnd (number q + 1) <= 2) by (split; [apply rnd_ge0; lra|apply rnd_le_F; [apply (F32_Z 2); lia|lra]]).
  destruct (fadd_correct q float1 Nq N1) as [Vs Fs]; fold (number q) (number float1) in *; rewrite V1 in *; [rewrite Rabs_pos_eq; lra|]. change (val (fadd q float1)) with (number (fadd q float1)) in Vs.
  assert (R3 : 0 <= rnd (/ 2 * number (fadd q float1)) <= 1) by (rewrite Vs; split; [apply rnd_ge0; lra|apply rnd_le_F; [apply F32_1|lra]]).
  destruct (fmul_correct float_half (fadd q float1) Nh Fs) as [Vr Fr]; fold (number float_half) (number (fadd q float1)) in *; rewrite Vh in *; [rewrite Rabs_pos_eq; lra|]. split; [exact Fr|]. change (val (fmul float_half (fadd q float1))) with (number (float_sigmoid_approx x)) in Vr. rewrite Vr. exact R3.
Qed.
