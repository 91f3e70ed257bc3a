(** The activation functions do not stretch distances, and make nothing larger than 1 or what they get. *)
From Coquelicot Require Import Coquelicot.
From Coq Require Import List Arith Bool NArith Reals Lia Lra.
From Verif Require Import Activation_Model Net_Model Net_Spec.
From Verif Require ModelFile_Model.
Local Open Scope R_scope.

Lemma lipschitz : forall f d : R -> R, (forall x, is_derive f x (d x)) -> (forall x, Rabs (d x) <= 1) -> forall x y, Rabs (f x - f y) <= Rabs (x - y).
Proof.
  intros f d Hd B x y. destruct (MVT_gen f y x d) as (c & _ & E).
  - intros z _. apply Hd.
  - intros z _. apply continuity_pt_filterlim. apply (ex_derive_continuous f). exists (d z). apply Hd.
  - rewrite E, Rabs_mult. rewrite <- (Rmult_1_l (Rabs (x - y))) at 2. apply Rmult_le_compat_r; [apply Rabs_pos|apply B].
Qed.
Lemma softsign_near : forall x y, Rabs (x / (1 + Rabs x) - y / (1 + Rabs y)) <= Rabs (x - y).
Proof.
  assert (P : forall x y, 0 <= y -> y <= x -> 0 <= x / (1 + x) - y / (1 + y) <= x - y).
  { intros x y Hy Hx. replace (x / (1 + x) - y / (1 + y)) with ((x - y) * / ((1 + x) * (1 + y))) by (field; lra). assert (Q : 1 <= (1 + x) * (1 + y)) by (assert (0 <= x * y) by (apply Rmult_le_pos; lra); lra).
    assert (Q0 : 0 < / ((1 + x) * (1 + y))) by (apply Rinv_0_lt_compat; lra). assert (Q1 : / ((1 + x) * (1 + y)) <= 1) by (rewrite <- Rinv_1; apply Rinv_le_contravar; lra). split; [apply Rmult_le_pos; lra|]. rewrite <- (Rmult_1_r (x - y)) at 2. apply Rmult_le_compat_l; lra. }
  assert (Z : forall x, 0 <= x -> 0 <= x / (1 + x) <= x). { intros x Hx. pose proof (P x 0 ltac:(lra) Hx) as Q. unfold Rdiv in *. lra. }
  assert (N : forall x, x <= 0 -> x / (1 + Rabs x) = - ((- x) / (1 + - x))) by (intros x Hx; rewrite Rabs_left1 by exact Hx; unfold Rdiv; ring).
  assert (W : forall x y, y <= x -> Rabs (x / (1 + Rabs x) - y / (1 + Rabs y)) <= x - y).
  { intros x y H. apply Rabs_le. destruct (Rle_lt_dec 0 y) as [Hy|Hy].
    - rewrite !Rabs_pos_eq by lra. pose proof (P x y Hy H). lra.
    - destruct (Rle_lt_dec 0 x) as [Hx|Hx].
      + rewrite (Rabs_pos_eq x) by lra. rewrite (N y) by lra. pose proof (Z x Hx). pose proof (Z (- y) ltac:(lra)). lra.
      + rewrite (N x), (N y) by lra. pose proof (P (- y) (- x) ltac:(lra) ltac:(lra)). lra. }
  intros x y. destruct (Rle_lt_dec y x) as [H|H].
  - rewrite (Rabs_pos_eq (x - y)) by lra. now apply W.
  - rewrite (Rabs_minus_sym x y), (Rabs_minus_sym (x / _)). rewrite (Rabs_pos_eq (y - x)) by lra. apply W. lra.
Qed.
Lemma leak_fraction : 0 < leak < 1.
Proof. unfold leak. replace (2 ^ 30) with 1073741824 by ring. lra. Qed.
Theorem formula_near : forall a x y, Rabs (formula a x - formula a y) <= Rabs (x - y).
Proof.
  assert (Tn : forall x y, Rabs ((exp x - exp (- x)) / (exp x + exp (- x)) - (exp y - exp (- y)) / (exp y + exp (- y))) <= Rabs (x - y)).
  { apply (lipschitz (fun x => (exp x - exp (- x)) / (exp x + exp (- x))) (fun x => 4 * (exp x * exp (- x)) / ((exp x + exp (- x)) * (exp x + exp (- x))))).
    - intros x. pose proof (exp_pos x). pose proof (exp_pos (- x)). auto_derive; [lra|]. field. lra.
    - intros x. pose proof (exp_pos x) as E. pose proof (exp_pos (- x)) as E'. set (a := exp x) in *. set (b := exp (- x)) in *. assert (P : 0 < (a + b) * (a + b)) by (apply Rmult_lt_0_compat; lra). assert (Q : 0 < a * b) by (apply Rmult_lt_0_compat; lra).
      rewrite Rabs_pos_eq by (apply Rmult_le_pos; [lra|left; now apply Rinv_0_lt_compat]). apply (Rmult_le_reg_r ((a + b) * (a + b))); [exact P|]. unfold Rdiv. rewrite Rmult_assoc, Rinv_l by lra. pose proof (Rle_0_sqr (a - b)) as S. unfold Rsqr in S. lra. }
  assert (Sg : forall x y, Rabs (exp x / (exp x + 1) - exp y / (exp y + 1)) <= Rabs (x - y)).
  { apply (lipschitz (fun x => exp x / (exp x + 1)) (fun x => exp x / ((exp x + 1) * (exp x + 1)))).
    - intros x. pose proof (exp_pos x). auto_derive; [lra|]. field. lra.
    - intros x. pose proof (exp_pos x) as E. set (a := exp x) in *. assert (P : 0 < (a + 1) * (a + 1)) by (apply Rmult_lt_0_compat; lra). rewrite Rabs_pos_eq by (apply Rmult_le_pos; [lra|left; now apply Rinv_0_lt_compat]). apply (Rmult_le_reg_r ((a + 1) * (a + 1))); [exact P|]. unfold Rdiv. rewrite Rmult_assoc, Rinv_l by lra.
      pose proof (Rle_0_sqr a) as S. unfold Rsqr in S. lra. }
  assert (Mx : forall k x y, 0 <= k <= 1 -> Rabs (Rmax (k * x) x - Rmax (k * y) y) <= Rabs (x - y)).
  { intros k. assert (W : forall x y, 0 <= k <= 1 -> y <= x -> Rabs (Rmax (k * x) x - Rmax (k * y) y) <= x - y).
    { intros x y Hk H. assert (V : forall z, (0 <= z /\ Rmax (k * z) z = z) \/ (z < 0 /\ Rmax (k * z) z = k * z)). { intros z. destruct (Rle_lt_dec 0 z) as [Hz|Hz]; [left|right]; (split; [exact Hz|]). - apply Rmax_right. assert (0 <= (1 - k) * z) by (apply Rmult_le_pos; lra). lra. - apply Rmax_left. assert (0 <= (1 - k) * - z) by (apply Rmult_le_pos; lra). lra. }
      assert (K : forall z, 0 <= z -> 0 <= k * z <= z). { intros z Hz. split; [apply Rmult_le_pos; lra|]. assert (0 <= (1 - k) * z) by (apply Rmult_le_pos; lra). lra. }
      apply Rabs_le. destruct (V x) as [[H1 ->]|[H1 ->]]; destruct (V y) as [[H2 ->]|[H2 ->]]; [lra| |lra|].
      - pose proof (K (- y) ltac:(lra)). lra.
      - pose proof (K (x - y) ltac:(lra)). lra. }
    intros x y Hk. destruct (Rle_lt_dec y x) as [H|H]; [rewrite (Rabs_pos_eq (x - y)) by lra; now apply W|]. rewrite (Rabs_minus_sym x y), (Rabs_minus_sym (Rmax _ _)). rewrite (Rabs_pos_eq (y - x)) by lra. apply W; [exact Hk|lra]. }
  pose proof leak_fraction as L. intros a x y. destruct a; cbn [formula]; try apply Rle_refl; try apply Tn; try apply Sg.
  all: try (apply Mx; lra).
  - pose proof (Mx 0 x y ltac:(lra)) as Q. rewrite !Rmult_0_l in Q. exact Q.
  - replace ((1 + x / (1 + Rabs x)) / 2 - (1 + y / (1 + Rabs y)) / 2) with ((x / (1 + Rabs x) - y / (1 + Rabs y)) / 2) by (unfold Rdiv; ring). unfold Rdiv at 1. rewrite Rabs_mult, (Rabs_pos_eq (/ 2)) by lra. pose proof (softsign_near x y). pose proof (Rabs_pos (x - y)). pose proof (Rabs_pos (x / (1 + Rabs x) - y / (1 + Rabs y))). lra.
Qed.
Theorem formula_size : forall a x, Rabs (formula a x) <= Rmax 1 (Rabs x).
Proof.
  intros a x. assert (Z : formula a 0 = 0 \/ formula a 0 = / 2).
  { destruct a; cbn [formula]; rewrite ?Ropp_0, ?exp_0, ?Rabs_R0; try (left; unfold Rdiv; lra); try (right; unfold Rdiv; lra); try (left; rewrite ?Rmult_0_r; apply Rmax_left; lra). all: right; field. }
  pose proof (formula_near a x 0) as Q. rewrite Rminus_0_r in Q. destruct Z as [Z|Z].
  - rewrite Z, Rminus_0_r in Q. eapply Rle_trans; [exact Q|apply Rmax_r].
  - assert (P : 0 < formula a x < 1); [|rewrite Rabs_pos_eq by lra; apply Rle_trans with 1; [lra|apply Rmax_l]]. destruct a; cbn [formula] in *; rewrite ?Ropp_0, ?exp_0 in Z; try lra; try (rewrite ?Rmult_0_r, Rmax_left in Z by lra; lra); try (unfold Rdiv in Z; lra).
    + pose proof (exp_pos x) as E. split; [apply Rmult_lt_0_compat; [exact E|apply Rinv_0_lt_compat; lra]|]. apply (Rmult_lt_reg_r (exp x + 1)); [lra|]. unfold Rdiv. rewrite Rmult_assoc, Rinv_l by lra. lra.
    + assert (B : -1 < x / (1 + Rabs x) < 1); [|unfold Rdiv at 1 3; lra]. pose proof (Rabs_pos x) as A. pose proof (Rle_abs x) as A1. pose proof (Rle_abs (- x)) as A2. rewrite Rabs_Ropp in A2. split; apply (Rmult_lt_reg_r (1 + Rabs x)); try lra; unfold Rdiv; rewrite Rmult_assoc, Rinv_l by lra; lra.
Qed.
