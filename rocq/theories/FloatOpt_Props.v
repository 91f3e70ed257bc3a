(** C112: the optimizers, computed with [float]. *)
From Coq Require Import List Arith Bool ZArith Reals Lia Lra.
From Flocq Require Import Core IEEE754.BinarySingleNaN IEEE754.Binary IEEE754.Bits.
From Verif Require Import F32_Model F32_Proofs Reduce_Model FloatNet_Model FloatNet_Spec FloatNet_Proofs FloatAct_Proofs FloatNet_Props FloatOpt_Model FloatOpt_Spec FloatOpt_Proofs.
From Verif Require Optimizer_Props.
Import ListNotations.
Local Open Scope R_scope.

(** ** Adam never produces NaN *)
(** Any number of changes with any gradients up to 2^63, a learning rate up to 1, from any parameter up to 2^60: the parameter and what
    Adam keeps for it are always numbers, and the parameter never leaves that range. *)
Theorem float_adam_gives_numbers : forall powf lr w gradients, accurate_square powf -> is_number lr -> 0 <= number lr <= 1 -> of_size (2 ^ 60) w -> Forall (of_size (2 ^ 63)) gradients ->
  let c := float_adam powf lr (fresh_cell w) gradients in of_size (2 ^ 60) (parameter c) /\ is_number (moment1 c) /\ is_number (moment2 c) /\ 0 <= number (moment2 c).
Proof.
  intros powf lr w gs Sq Nl Bl Hw Hg c. destruct (adam_run_balanced powf Sq lr Nl Bl gs (fresh_cell w) (fresh_balanced w) Hw Hg) as [((Nm & _) & Nv & (Pv & _) & _) B]. repeat split; try assumption; apply B.
Qed.

(** ** A step is the one of the formula, and short *)
(** After any gradients, the next change moves the parameter by [rate * m / (sqrt v + 2e-8)], with the moments [m] and [v] the
    code keeps; the error is that of rounding.  Whatever the gradients are, the step is not longer than 7.5 learning rates. *)
Theorem float_adam_step_is : forall powf lr w gradients g, accurate_square powf -> is_number lr -> 0 <= number lr <= 1 -> of_size (2 ^ 60) w -> Forall (of_size (2 ^ 63)) gradients -> of_size (2 ^ 63) g ->
  let before := float_adam powf lr (fresh_cell w) gradients in let after := float_adam powf lr (fresh_cell w) (gradients ++ [g]) in let x := number (parameter before) in
  Rabs (number (parameter after) - (x - number lr * number (moment1 after) / (sqrt (number (moment2 after)) + 2 * number float_epsilon))) <= unit_error * (Rabs x + 83 * number lr) + / 2 ^ 122 /\
  Rabs (number (parameter after) - x) <= 15 / 2 * number lr + unit_error * Rabs x + / 2 ^ 122.
Proof.
  intros powf lr w gs g Sq Nl Bl Hw Hgs Hg before after x. destruct (adam_run_balanced powf Sq lr Nl Bl gs (fresh_cell w) (fresh_balanced w) Hw Hgs) as [B1 B2]. fold before in B1, B2. assert (Ea : after = float_adam_step powf lr before g) by (subst after before; unfold float_adam; rewrite fold_left_app; reflexivity).
  destruct (parameter_step powf Sq lr Nl Bl before g B1 Hg B2) as [_ E]. cbv zeta in E. rewrite <- Ea in E. fold x in E. assert (T : 2 * (134217728 * tiny) = / 2 ^ 122). { rewrite tiny_value. replace (2 ^ 150) with (2 ^ 28 * 2 ^ 122) by (rewrite <- pow_add; reflexivity). rewrite Rinv_mult. lra. } rewrite T in E. split; [exact E|].
  pose proof (balanced_step powf Sq lr before g B1 Hg) as [B3 _]. rewrite <- Ea in B3. pose proof (balanced_size after B3) as [S0 S1]. unfold size_of_step in *. set (m := number (moment1 after)) in *. set (d := sqrt (number (moment2 after)) + 2 * number float_epsilon) in *.
  assert (Pd : 0 < d) by (subst d; rewrite (proj2 epsilon_is); pose proof (sqrt_pos (number (moment2 after))); lra). assert (A : Rabs (number lr * m / d) <= 749 / 100 * number lr). { unfold Rdiv at 1. rewrite !Rabs_mult, (Rabs_pos_eq (number lr)), (Rabs_pos_eq (/ d)) by (try lra; left; now apply Rinv_0_lt_compat). rewrite Rmult_assoc, (Rmult_comm (749 / 100)). apply Rmult_le_compat_l; [lra|exact S1]. }
  clearbody m d. replace (number (parameter after) - x) with (number (parameter after) - (x - number lr * m / d) + - (number lr * m / d)) by ring. eapply Rle_trans; [apply Rabs_triang|]. rewrite Rabs_Ropp. rewrite unit_value in *. lra.
Qed.
(** What Adam keeps is what it would keep in exact arithmetic (see C66), up to a part of the largest gradient [G]. *)
Theorem float_adam_moments : forall powf lr w gradients G, accurate_square powf -> 0 <= G <= 2 ^ 63 -> Forall (of_size G) gradients ->
  let c := float_adam powf lr (fresh_cell w) gradients in let exact := map number gradients in
  Rabs (number (moment1 c) - 1 / 10 * Optimizer_Props.discounted (9 / 10) exact) <= 75 * unit_error * G + 40 * tiny /\
  Rabs (number (moment2 c) - 1 / 1000 * Optimizer_Props.discounted (999 / 1000) (map (fun x => x ^ 2) exact)) <= 14000 * unit_error * (G * G) + 5000 * tiny.
Proof.
  intros powf lr w gs G Sq HG Hgs c exact. enough (H : tracks G c (1 / 10 * Optimizer_Props.discounted (9 / 10) exact) (1 / 1000 * Optimizer_Props.discounted (999 / 1000) (map (fun x => x ^ 2) exact))) by (destruct H as (_ & _ & _ & A & B); split; assumption).
  subst c exact. induction gs as [|g gs IH] using rev_ind.
  - split; [apply fresh_balanced|]. cbn. pose proof tiny_pos. assert (0 <= G * G) by (apply Rmult_le_pos; lra). pose proof unit_pos. rewrite !Rmult_0_r, Rminus_0_r, Rabs_R0. assert (0 <= 75 * unit_error * G) by (apply Rmult_le_pos; lra). assert (0 <= 14000 * unit_error * (G * G)) by (apply Rmult_le_pos; lra). repeat split; lra.
  - apply Forall_app in Hgs. destruct Hgs as [H1 H2]. inversion H2 as [|? ? (Ng & Bg) _]; subst. specialize (IH H1). unfold float_adam. rewrite fold_left_app. cbn [fold_left]. fold (float_adam powf lr (fresh_cell w) gs). rewrite !map_app. cbn [map]. rewrite !Optimizer_Props.discounted_snoc.
    pose proof (tracks_step powf Sq lr G HG _ g _ _ IH Ng Bg) as St. unfold mean1, mean2 in St. match goal with |- tracks _ _ ?a ?b => match type of St with tracks _ _ ?a' ?b' => replace a with a' by ring; replace b with b' by ring end end. exact St.
Qed.

(** ** One huge gradient stops Adam for good (refuted: that training goes on) *)
(** After a gradient of 2^64 or more, of which the square is infinite, the parameter is never changed again, whatever the later gradients are. *)
Theorem adam_stops_refuted : forall powf lr w before huge after, accurate_square powf -> is_number lr -> 0 <= number lr <= 1 -> of_size (2 ^ 60) w ->
  Forall (of_size (2 ^ 63)) before -> of_size (2 ^ 126) huge -> 2 ^ 64 <= Rabs (number huge) -> Forall (of_size (2 ^ 126)) after ->
  number (parameter (float_adam powf lr (fresh_cell w) (before ++ huge :: after))) = number (parameter (float_adam powf lr (fresh_cell w) before)).
Proof.
  intros powf lr w before huge after Sq Nl Bl Hw Hb Hh Big Ha. destruct (adam_run_balanced powf Sq lr Nl Bl before (fresh_cell w) (fresh_balanced w) Hw Hb) as [B1 [Nw _]]. unfold float_adam at 1. rewrite fold_left_app. cbn [fold_left]. fold (float_adam powf lr (fresh_cell w) before). set (c := float_adam powf lr (fresh_cell w) before) in *. clearbody c.
  pose proof (becomes_stuck powf Sq lr c huge B1 Hh Big) as St. destruct B1 as ((Nm & Bm) & _). assert (Hm : of_size (2 ^ 127) (moment1 c)) by (split; [exact Nm|lra]).
  destruct (zero_step powf lr Nl Bl c huge Hm Hh Nw (proj2 St)) as [Nw' Vw']. fold (float_adam powf lr (float_adam_step powf lr c huge) after). rewrite <- Vw'. now apply stuck_run.
Qed.

(** ** Momentum and plain gradient descent *)
(** The momentum of gradients up to [G] is a number and at most a little over ten times [rate * G], after any number of changes. *)
Theorem float_momentum_is_bounded : forall lr w gradients G, is_number lr -> 0 <= number lr -> 0 <= G -> number lr * G <= 2 ^ 100 -> Forall (of_size G) gradients ->
  let c := float_momentum lr (fresh_cell w) gradients in is_number (moment1 c) /\ Rabs (number (moment1 c)) <= 101 / 10 * (number lr * G) + / 2 ^ 140.
Proof.
  intros lr w gs G Nl Pl PG B Hg c. assert (T : / 2 ^ 140 = 1024 * tiny). { rewrite tiny_value. replace (2 ^ 150) with (2 ^ 10 * 2 ^ 140) by (rewrite <- pow_add; reflexivity). rewrite Rinv_mult. lra. } rewrite T. apply momentum_bounded; try assumption; [|reflexivity]. unfold fresh_cell. cbn [moment1]. rewrite (proj2 float0_is), Rabs_R0. pose proof tiny_pos. assert (0 <= number lr * G) by (apply Rmult_le_pos; assumption). lra.
Qed.
(** It is what exact arithmetic gives, up to a small part of the largest it can be, and it is what the parameter is changed by. *)
Theorem float_momentum_step_is : forall lr w gradients g G, is_number lr -> 0 <= number lr -> 0 <= G -> number lr * G <= 2 ^ 100 -> Forall (of_size G) (gradients ++ [g]) ->
  let before := float_momentum lr (fresh_cell w) gradients in let after := float_momentum lr (fresh_cell w) (gradients ++ [g]) in let x := number (parameter before) in
  Rabs (number (moment1 after) - number lr * Optimizer_Props.discounted (9 / 10) (map number (gradients ++ [g]))) <= 700 * unit_error * (number lr * G) + / 2 ^ 143 /\
  (is_number (parameter before) -> Rabs x <= 2 ^ 126 -> is_number (parameter after) /\ Rabs (number (parameter after) - (x - number (moment1 after))) <= unit_error * Rabs (x - number (moment1 after))).
Proof.
  intros lr w gs g G Nl Pl PG B Hg before after x. split.
  - assert (T : / 2 ^ 143 = 128 * tiny). { rewrite tiny_value. replace (2 ^ 150) with (2 ^ 7 * 2 ^ 143) by (rewrite <- pow_add; reflexivity). rewrite Rinv_mult. lra. } rewrite T. subst after. clear before x. revert Hg. generalize (gs ++ [g]). clear gs g. intros gs Hg. apply (momentum_tracks lr w G Nl Pl PG B gs Hg).
  - intros Nx Bx. pose proof (momentum_bounded lr G (gs ++ [g]) (fresh_cell w) Nl Pl PG B Hg) as M. destruct M as [Nm Bm]; [cbn [fresh_cell moment1]; rewrite (proj2 float0_is), Rabs_R0; pose proof tiny_pos; assert (0 <= number lr * G) by (apply Rmult_le_pos; assumption); lra|reflexivity|].
    fold after in Nm, Bm. assert (E : parameter after = fsub (parameter before) (moment1 after)) by (subst after before; unfold float_momentum; rewrite fold_left_app; reflexivity). rewrite E. fold x in Bx. pose proof tiny_le. assert (2 ^ 100 * 2 ^ 26 = 2 ^ 126) by (rewrite <- pow_add; reflexivity). assert (2 ^ 126 * 2 = 2 ^ 127) by (rewrite <- (pow_1 2) at 2; rewrite <- pow_add; reflexivity). assert (1 <= 2 ^ 100) by (apply pow_R1_Rle; lra). assert (64 <= 2 ^ 26) by (apply Rle_trans with (2 ^ 6); [lra|apply Rle_pow; [lra|lia]]).
    assert (64 * 2 ^ 100 <= 2 ^ 126) by (rewrite <- H0, Rmult_comm; apply Rmult_le_compat_l; lra).
    destruct (sub_is (parameter before) (moment1 after) Nx Nm) as [N V]; [unfold Rminus; eapply Rle_trans; [apply Rabs_triang|]; rewrite Rabs_Ropp; fold x; lra|]. split; [exact N|]. rewrite V. fold x. unfold Rminus at 2 3. apply sum_rounded_error; [apply number_format|apply generic_format_opp; apply number_format].
Qed.
Theorem float_descent_is : forall lr w g, is_number lr -> is_number w -> is_number g -> Rabs (number w) <= 2 ^ 126 -> Rabs (number lr * number g) <= 2 ^ 125 ->
  is_number (float_descent_step lr w g) /\ Rabs (number (float_descent_step lr w g) - (number w - number lr * number g)) <= unit_error * (Rabs (number w) + 3 * Rabs (number lr * number g)) + / 2 ^ 149.
Proof.
  intros lr w g Nl Nw Ng Bw Bg. assert (T : / 2 ^ 149 = 2 * tiny). { rewrite tiny_value. replace (2 ^ 150) with (2 * 2 ^ 149) by (rewrite <- (pow_1 2) at 1; rewrite <- pow_add; reflexivity). rewrite Rinv_mult. lra. } rewrite T. now apply descent_near.
Qed.

(** ** Examples *)
Definition rate : F := literal 8589935 (-33).
Lemma rate_is : is_number rate /\ 0 <= number rate <= 1.
Proof. destruct (literal_is 8589935 (-33) ltac:(lia) ltac:(lia)) as [N V]. split; [exact N|]. unfold rate. rewrite V. change (bpow radix2 (-33)) with (/ 8589934592). lra. Qed.
Lemma small_size : forall z n, (Z.abs z <= 1024)%Z -> (10 <= n)%nat -> of_size (2 ^ n) (of_Z z).
Proof. intros z n H Hn. destruct (whole z ltac:(lia)) as [N V]. split; [exact N|]. rewrite V, <- abs_IZR. apply Rle_trans with (2 ^ 10); [|apply Rle_pow; [lra|exact Hn]]. replace (2 ^ 10) with 1024 by lra. now apply IZR_le. Qed.
(** Gradients of 3 and -2, a learning rate of 0.001 and a weight of 5. *)
Example ex_two_changes : let c := float_adam (fun x _ => fmul x x) rate (fresh_cell (of_Z 5)) [of_Z 3; of_Z (-2)] in is_number (parameter c) /\ Rabs (number (moment1 c) - 7 / 100) <= 1 / 10000.
Proof.
  destruct rate_is as [Nr Br]. assert (H : Forall (of_size (2 ^ 63)) [of_Z 3; of_Z (-2)]) by (repeat (apply Forall_cons; [apply small_size; lia|]); apply Forall_nil). split.
  - apply (float_adam_gives_numbers _ rate (of_Z 5) [of_Z 3; of_Z (-2)] product_square Nr Br); [apply small_size; lia|exact H].
  - destruct (float_adam_moments _ rate (of_Z 5) [of_Z 3; of_Z (-2)] 3 product_square) as [A _]; [assert (2 ^ 2 <= 2 ^ 63) by (apply Rle_pow; [lra|lia]); lra|constructor; [|constructor; [|constructor]]; (split; [reflexivity|]); [rewrite (proj2 (whole 3 ltac:(lia)))|rewrite (proj2 (whole (-2) ltac:(lia)))]; rewrite <- abs_IZR; apply IZR_le; lia|].
    cbn [map Optimizer_Props.discounted length pow] in A. rewrite (proj2 (whole 3 ltac:(lia))), (proj2 (whole (-2) ltac:(lia))) in A. replace (1 / 10 * (3 * (9 / 10 * 1) + (-2 * 1 + 0))) with (7 / 100) in A by field. pose proof tiny_le. rewrite unit_value in A. lra.
Qed.
(** A gradient of 2^70, then three of 1: the weight is 5 for ever. *)
Example ex_stopped : number (parameter (float_adam (fun x _ => fmul x x) rate (fresh_cell (of_Z 5)) [literal 1 70; of_Z 1; of_Z 1; of_Z 1])) = 5.
Proof.
  destruct rate_is as [Nr Br]. destruct (literal_is 1 70 ltac:(lia) ltac:(lia)) as [N V]. assert (E : number (literal 1 70) = 2 ^ 70) by (rewrite V, Rmult_1_l, pow_IZR; reflexivity).
  change [literal 1 70; of_Z 1; of_Z 1; of_Z 1] with ([] ++ literal 1 70 :: [of_Z 1; of_Z 1; of_Z 1]). rewrite (adam_stops_refuted _ rate (of_Z 5) [] (literal 1 70) [of_Z 1; of_Z 1; of_Z 1] product_square Nr Br).
  - cbn [float_adam fold_left fresh_cell parameter]. apply (whole 5). lia.
  - apply small_size; lia.
  - constructor.
  - split; [exact N|]. rewrite E, Rabs_pos_eq by (apply pow_le; lra). apply Rle_pow; [lra|lia].
  - rewrite E, Rabs_pos_eq by (apply pow_le; lra). apply Rle_pow; [lra|lia].
  - repeat (apply Forall_cons; [apply small_size; lia|]); apply Forall_nil.
Qed.
Example ex_momentum : let c := float_momentum rate (fresh_cell (of_Z 5)) [of_Z 3; of_Z (-2)] in is_number (moment1 c).
Proof.
  destruct rate_is as [Nr Br]. apply (float_momentum_is_bounded rate (of_Z 5) [of_Z 3; of_Z (-2)] (2 ^ 10) Nr); [lra|apply pow_le; lra| |repeat (apply Forall_cons; [apply small_size; lia|]); apply Forall_nil]. apply Rle_trans with (1 * 2 ^ 10); [apply Rmult_le_compat_r; [apply pow_le; lra|lra]|rewrite Rmult_1_l; apply Rle_pow; [lra|lia]].
Qed.
(** The momentum is nearly 0.001 * (0.9 * 3 - 2), and the weight is changed by it. *)
Example ex_momentum_step : let c := float_momentum rate (fresh_cell (of_Z 5)) [of_Z 3; of_Z (-2)] in Rabs (number (moment1 c) - 7 / 10000) <= 1 / 1000000 /\ is_number (parameter c).
Proof.
  destruct rate_is as [Nr Br]. assert (Vr : number rate = 8589935 / 8589934592) by (destruct (literal_is 8589935 (-33) ltac:(lia) ltac:(lia)) as [_ V]; unfold rate; rewrite V; reflexivity). assert (P : 4 <= 2 ^ 100) by (apply Rle_trans with (2 ^ 2); [lra|apply Rle_pow; [lra|lia]]).
  assert (H : Forall (of_size 3) ([of_Z 3] ++ [of_Z (-2)])) by (constructor; [|constructor; [|constructor]]; (split; [reflexivity|]); [rewrite (proj2 (whole 3 ltac:(lia)))|rewrite (proj2 (whole (-2) ltac:(lia)))]; rewrite <- abs_IZR; apply IZR_le; lia).
  destruct (float_momentum_step_is rate (of_Z 5) [of_Z 3] (of_Z (-2)) 3 Nr ltac:(lra) ltac:(lra) ltac:(lra) H) as [A C]. change ([of_Z 3] ++ [of_Z (-2)]) with [of_Z 3; of_Z (-2)] in *. split.
  - cbn [map Optimizer_Props.discounted length pow] in A. rewrite (proj2 (whole 3 ltac:(lia))), (proj2 (whole (-2) ltac:(lia))), Vr in A. assert (/ 2 ^ 143 <= / 2 ^ 40) by (apply Rinv_le_contravar; [apply pow_lt; lra|apply Rle_pow; [lra|lia]]). assert (E40 : 2 ^ 40 = 1099511627776) by (rewrite pow_IZR; reflexivity). rewrite E40 in *. rewrite unit_value in A.
    apply Rabs_le_inv in A. apply Rabs_le. lra.
  - apply C.
    + destruct (float_momentum_step_is rate (of_Z 5) [] (of_Z 3) 3 Nr ltac:(lra) ltac:(lra) ltac:(lra)) as [_ D]; [inversion H; subst; constructor; [assumption|constructor]|]. apply D; [reflexivity|]. cbn [float_momentum fold_left fresh_cell parameter]. rewrite (proj2 (whole 5 ltac:(lia))), Rabs_pos_eq by lra. apply Rle_trans with (2 ^ 3); [lra|apply Rle_pow; [lra|lia]].
    + destruct (float_momentum_step_is rate (of_Z 5) [] (of_Z 3) 3 Nr ltac:(lra) ltac:(lra) ltac:(lra)) as [A1 D]; [inversion H; subst; constructor; [assumption|constructor]|]. destruct D as [_ D]; [reflexivity|cbn [float_momentum fold_left fresh_cell parameter]; rewrite (proj2 (whole 5 ltac:(lia))), Rabs_pos_eq by lra; apply Rle_trans with (2 ^ 3); [lra|apply Rle_pow; [lra|lia]]|].
      cbn [app] in A1, D. set (c1 := float_momentum rate (fresh_cell (of_Z 5)) [of_Z 3]) in *. change (number (parameter (float_momentum rate (fresh_cell (of_Z 5)) []))) with (number (of_Z 5)) in D. rewrite (proj2 (whole 5 ltac:(lia))) in D. cbn [map Optimizer_Props.discounted length pow] in A1. rewrite (proj2 (whole 3 ltac:(lia))), Vr in A1. assert (/ 2 ^ 143 <= 1) by (apply Rle_trans with (/ 1); [apply Rinv_le_contravar; [lra|apply pow_R1_Rle; lra]|lra]). rewrite unit_value in *. apply Rabs_le_inv in A1. assert (Bm : Rabs (5 - number (moment1 c1)) <= 7) by (apply Rabs_le; lra).
      apply Rle_trans with (2 ^ 4); [|apply Rle_pow; [lra|lia]]. apply Rabs_le_inv in Bm. apply Rabs_le_inv in D. assert (Q : Rabs (5 - number (moment1 c1)) <= 7) by (apply Rabs_le; lra). apply Rabs_le. lra.
Qed.
Example ex_descent : is_number (float_descent_step (of_Z 1) (of_Z 5) (of_Z 3)).
Proof. assert (B : 15 <= 2 ^ 125) by (apply Rle_trans with (2 ^ 4); [lra|apply Rle_pow; [lra|lia]]). apply float_descent_is; try reflexivity; rewrite ?(proj2 (whole 5 ltac:(lia))), ?(proj2 (whole 1 ltac:(lia))), ?(proj2 (whole 3 ltac:(lia))); rewrite Rabs_pos_eq by lra; lra. Qed.

Print Assumptions float_adam_gives_numbers.
Print Assumptions float_adam_step_is.
Print Assumptions float_adam_moments.
Print Assumptions adam_stops_refuted.
Print Assumptions float_momentum_is_bounded.
Print Assumptions float_momentum_step_is.
Print Assumptions float_descent_is.
