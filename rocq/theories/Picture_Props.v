(** C117: pictures shown as text. *)
From Coq Require Import List Arith Bool ZArith NArith Reals Lia Lra.
From Flocq Require Import Core Mult_error IEEE754.BinarySingleNaN IEEE754.Binary IEEE754.Bits.
From Verif Require Import Outcome Tensor_Model Tensor_Spec F32_Model F32_Proofs Reduce_Model FloatNet_Model FloatNet_Spec FloatNet_Proofs FloatSoft_Proofs FloatAct_Proofs FloatNet_Props FloatOpt_Model FloatOpt_Spec FloatOpt_Proofs FloatLoss_Spec FloatLoss_Proofs Picture_Model Picture_Spec Picture_Proofs.
From Verif Require OneHot_Proofs.
Import ListNotations.
Local Open Scope R_scope.

(** ** The size of what is shown *)
(** A character for each column and each two rows, and one of the five characters: no other memory is read.  *)
Theorem picture_shape : forall t r c k f, is_tensor t r c k f -> (0 < k)%nat -> (Z.of_nat k <= 1048576)%Z -> everywhere r c k (fun i j l => of_size (2 ^ 100) (f i j l)) ->
  exists lines, decodeImage t = Ok lines /\ length lines = ((r + 1) / 2)%nat /\ (forall line, In line lines -> length line = c /\ forall character, In character line -> brightness character <> None).
Proof.
  intros t r c k f T K K2 B. destruct (picture_is t r c k f T (all_shades r c k f K K2 B)) as (lines & E & L & P & _). exists lines. now repeat split; try apply P.
Qed.
Print Assumptions picture_shape.

(** ** Brighter is brighter *)
(** Of two characters that stand for two rows each, or for the last row of an odd number of them, the one with the larger numbers in each channel is not shown darker. *)
Theorem brighter_pixels_look_brighter : forall t r c k f lines p j p' j' b b', is_tensor t r c k f -> (0 < k)%nat -> (Z.of_nat k <= 1048576)%Z -> everywhere r c k (fun i j l => of_size (2 ^ 100) (f i j l)) ->
  decodeImage t = Ok lines -> (2 * p < r)%nat -> (j < c)%nat -> (2 * p' < r)%nat -> (j' < c)%nat -> ((2 * p + 1 < r)%nat <-> (2 * p' + 1 < r)%nat) ->
  (forall l, (l < k)%nat -> number (f (2 * p) j l)%nat <= number (f (2 * p') j' l)%nat) -> ((2 * p + 1 < r)%nat -> forall l, (l < k)%nat -> number (f (2 * p + 1) j l)%nat <= number (f (2 * p' + 1) j' l)%nat) ->
  shows lines p j b -> shows lines p' j' b' -> (b <= b')%nat.
Proof.
  intros t r c k f lines p j p' j' b b' T K K2 B E Hp Hj Hp' Hj' Same H1 H2 S S'. destruct (picture_is t r c k f T (all_shades r c k f K K2 B)) as (lines' & E' & _ & _ & Sh). rewrite E in E'. injection E' as <-. apply Sh in S; [|assumption|assumption]. apply Sh in S'; [|assumption|assumption]. rewrite S, S'.
  assert (G : forall q x, (2 * q < r)%nat -> (x < c)%nat -> is_number (gray r k f (2 * q) x) /\ 0 <= number (gray r k f (2 * q) x) <= 1) by (intros q x Hq Hx; destruct (gray_is r c k f K K2 B (2 * q) x Hq Hx) as (N & _ & R); now split).
  destruct (largest_spec r c k f G) as (N & P & L & _). assert (Eb : (2 * p + 1 <? r)%nat = (2 * p' + 1 <? r)%nat) by (destruct (Nat.ltb_spec (2 * p + 1) r), (Nat.ltb_spec (2 * p' + 1) r); try reflexivity; lia).
  pose proof (gray_mono r c k f K K2 B (2 * p) j (2 * p') j' Hp Hj Hp' Hj' Eb H1 H2) as M. destruct (G p j Hp Hj) as [N1 R1]. destruct (G p' j' Hp' Hj') as [N2 R2]. apply level_mono; try assumption; [apply P|lra|now apply L].
Qed.
Print Assumptions brighter_pixels_look_brighter.

Lemma pix_light : forall r c k f i j, (0 < k)%nat -> (Z.of_nat k <= 1048576)%Z -> everywhere r c k (fun i j l => of_size (2 ^ 100) (f i j l) /\ 0 <= number (f i j l)) -> (i < r)%nat -> (j < c)%nat ->
  0 <= number (pix k f i j) /\ ((exists l, (l < Nat.min k 3)%nat /\ / 2 ^ 100 <= number (f i j l)) -> (k = 1 \/ 3 <= k)%nat -> / 2 ^ 104 <= number (pix k f i j)).
Proof.
  intros r c k f i j K K2 B Hi Hj. rewrite (proj2 (pix_is r c k f K (fun i j l Hi Hj Hl => proj1 (B i j l Hi Hj Hl)) i j Hi Hj)). destruct (Nat.leb_spec 3 k) as [Q|Q].
  - assert (P : forall l, (l < 3)%nat -> 0 <= number (f i j l)) by (intros l Hl; apply B; lia). split.
    + assert (Z : light 0 0 0 = 0) by (unfold light; rewrite !Rmult_0_r; repeat (rewrite Rplus_0_r || rewrite rnd_0); reflexivity). rewrite <- Z. apply light_mono; apply P; lia.
    + intros (l & Hl & V) _. apply light_pos; try (apply P; lia). rewrite Nat.min_r in Hl by exact Q. destruct l as [|[|[|l]]]; [now left|right; now left|right; now right|lia].
  - split; [apply B; lia|]. intros (l & Hl & V) [->|]; [|lia]. destruct l as [|l]; [|cbn in Hl; lia]. apply Rle_trans with (/ 2 ^ 100); [|exact V]. apply Rinv_le; [apply pow_lt; lra|apply pow_up; lia].
Qed.
(** The brightest spot of a picture that is not black is a full block, and a black picture is blank. *)
Theorem brightest_spot_is_full : forall t r c k f, is_tensor t r c k f -> (k = 1 \/ 3 <= k)%nat -> (Z.of_nat k <= 1048576)%Z -> everywhere r c k (fun i j l => of_size (2 ^ 100) (f i j l) /\ 0 <= number (f i j l)) ->
  exists lines, decodeImage t = Ok lines /\
    ((exists i j l, (i < r)%nat /\ (j < c)%nat /\ (l < Nat.min k 3)%nat /\ / 2 ^ 100 <= number (f i j l)) -> exists p j, (2 * p < r)%nat /\ (j < c)%nat /\ shows lines p j 4) /\
    (everywhere r c k (fun i j l => number (f i j l) = 0) -> forall p j, (2 * p < r)%nat -> (j < c)%nat -> shows lines p j 0).
Proof.
  intros t r c k f T Kk K2 B'. assert (K : (0 < k)%nat) by lia. pose proof (fun i j l Hi Hj Hl => proj1 (B' i j l Hi Hj Hl)) as B. cbv beta in B. destruct (picture_is t r c k f T (all_shades r c k f K K2 B)) as (lines & E & _ & _ & Sh). exists lines. split; [exact E|].
  assert (G : forall q x, (2 * q < r)%nat -> (x < c)%nat -> is_number (gray r k f (2 * q) x) /\ 0 <= number (gray r k f (2 * q) x) <= 1) by (intros q x Hq Hx; destruct (gray_is r c k f K K2 B (2 * q) x Hq Hx) as (N & _ & R); now split).
  destruct (largest_spec r c k f G) as (N & P & L & A). assert (Sn : seen k = true) by (unfold seen; destruct Kk as [->|Q]; [reflexivity|]; apply Nat.leb_le in Q; now rewrite Q). split.
  - intros (i & j & l & Hi & Hj & Hl & V). set (p := (i / 2)%nat). pose proof (Nat.div_mod i 2 ltac:(lia)) as D. pose proof (Nat.mod_upper_bound i 2 ltac:(lia)) as D2. fold p in D. assert (Hp : (2 * p < r)%nat) by lia.
    assert (Pos : 0 < number (gray r k f (2 * p) j)). { apply (gray_pos r c k f K K2 B (2 * p) j Sn Hp Hj); [apply (pix_light r c k f); assumption|intros Q; apply (pix_light r c k f); assumption|]. destruct (Nat.eq_dec i (2 * p)) as [Ei|Ei]; [left; rewrite <- Ei|right; assert (Ei' : i = (2 * p + 1)%nat) by lia; rewrite <- Ei'; split; [exact Hi|]]; (apply (pix_light r c k f); try assumption; now exists l). }
    destruct A as [(q & x & Hq & Hx & Eq)|A]; [|rewrite (A p j Hp Hj) in Pos; lra]. exists q, x. split; [exact Hq|]. split; [exact Hx|]. apply Sh; [exact Hq|exact Hx|]. symmetry. apply level_top; [exact N|apply (G q x Hq Hx)|apply P|exact Eq].
  - intros Z p j Hp Hj. apply Sh; [exact Hp|exact Hj|]. symmetry. apply level_zero; [exact N|apply (G p j Hp Hj)|apply P|]. apply (gray_black r c k f K K2 B (2 * p) j Hp Hj).
    assert (PZ : forall i, (i < r)%nat -> number (pix k f i j) = 0). { intros i Hi. rewrite (proj2 (pix_is r c k f K B i j Hi Hj)). destruct (Nat.leb_spec 3 k) as [Q|Q]; [rewrite !Z by lia|now apply Z]. unfold light. rewrite !Rmult_0_r. repeat (rewrite Rplus_0_r || rewrite rnd_0). reflexivity. }
    unfold mix. rewrite Sn. destruct (Nat.ltb_spec (2 * p + 1) r) as [Q|Q]; [rewrite !PZ by assumption; rewrite Rplus_0_r, rnd_0; unfold Rdiv; rewrite Rmult_0_l, rnd_0; lra|rewrite PZ by assumption; lra].
Qed.
Print Assumptions brightest_spot_is_full.

(** ** Uniform pictures *)
(** A picture of one number with an even number of rows is full blocks only. *)
Theorem uniform_picture_is_uniform : forall t r c k f v, is_tensor t r c k f -> (k = 1 \/ 3 <= k)%nat -> (Z.of_nat k <= 1048576)%Z -> Nat.Even r -> / 2 ^ 100 <= v -> everywhere r c k (fun i j l => of_size (2 ^ 100) (f i j l) /\ number (f i j l) = v) ->
  exists lines, decodeImage t = Ok lines /\ forall p j, (2 * p < r)%nat -> (j < c)%nat -> shows lines p j 4.
Proof.
  intros t r c k f v T Kk K2 (m & Em) Hv B'. assert (K : (0 < k)%nat) by lia. assert (P0 : 0 < / 2 ^ 100) by (apply Rinv_0_lt_compat; apply pow_lt; lra). pose proof (fun i j l Hi Hj Hl => proj1 (B' i j l Hi Hj Hl)) as B. cbv beta in B. destruct (picture_is t r c k f T (all_shades r c k f K K2 B)) as (lines & E & _ & _ & Sh). exists lines. split; [exact E|].
  assert (G : forall q x, (2 * q < r)%nat -> (x < c)%nat -> is_number (gray r k f (2 * q) x) /\ 0 <= number (gray r k f (2 * q) x) <= 1) by (intros q x Hq Hx; destruct (gray_is r c k f K K2 B (2 * q) x Hq Hx) as (N & _ & R); now split).
  destruct (largest_spec r c k f G) as (N & P & L & A). assert (Sn : seen k = true) by (unfold seen; destruct Kk as [->|Q]; [reflexivity|]; apply Nat.leb_le in Q; now rewrite Q).
  assert (B2 : everywhere r c k (fun i j l => of_size (2 ^ 100) (f i j l) /\ 0 <= number (f i j l))) by (intros i j l Hi Hj Hl; destruct (B' i j l Hi Hj Hl) as [X Y]; split; [exact X|lra]).
  assert (Same : forall p j p' j', (2 * p < r)%nat -> (j < c)%nat -> (2 * p' < r)%nat -> (j' < c)%nat -> number (gray r k f (2 * p) j) <= number (gray r k f (2 * p') j')).
  { intros p j p' j' Hp Hj Hp' Hj'. apply (gray_mono r c k f K K2 B (2 * p) j (2 * p') j' Hp Hj Hp' Hj'); [destruct (Nat.ltb_spec (2 * p + 1) r), (Nat.ltb_spec (2 * p' + 1) r); try reflexivity; lia| |]; [intros l Hl; rewrite (proj2 (B' (2 * p)%nat j l Hp Hj Hl)), (proj2 (B' (2 * p')%nat j' l Hp' Hj' Hl)); lra|intros Q l Hl; rewrite (proj2 (B' (2 * p + 1)%nat j l Q Hj Hl)), (proj2 (B' (2 * p' + 1)%nat j' l ltac:(lia) Hj' Hl)); lra]. }
  intros p j Hp Hj. apply Sh; [exact Hp|exact Hj|]. symmetry. apply level_top; [exact N|apply (G p j Hp Hj)|apply P|].
  assert (Pos : 0 < number (gray r k f (2 * p) j)). { apply (gray_pos r c k f K K2 B (2 * p) j Sn Hp Hj); [apply (pix_light r c k f); assumption|intros Q; apply (pix_light r c k f); assumption|]. left. apply (pix_light r c k f); try assumption. exists 0%nat. split; [lia|]. rewrite (proj2 (B' _ _ 0%nat Hp Hj K)). exact Hv. }
  destruct A as [(q & x & Hq & Hx & Eq)|A]; [|rewrite (A p j Hp Hj) in Pos; lra]. pose proof (Same p j q x Hp Hj Hq Hx). pose proof (Same q x p j Hq Hx Hp Hj). lra.
Qed.
Print Assumptions uniform_picture_is_uniform.
Lemma F32_halved x : F32 x -> / 2 ^ 100 <= x -> F32 (x / 2).
Proof.
  intros Fx Hx. change (x / 2) with (x * bpow radix2 (-1)). apply (mult_bpow_exact_FLT radix2 (-149) 24); [exact Fx|]. assert (M : (-99 <= mag radix2 x)%Z). { apply mag_ge_bpow. assert (0 < / 2 ^ 100) by (apply Rinv_0_lt_compat; apply pow_lt; lra). rewrite Rabs_pos_eq by lra. replace (bpow radix2 (-99 - 1)) with (/ 2 ^ 100); [exact Hx|]. change (-99 - 1)%Z with (Z.opp 100). rewrite bpow_opp. f_equal. rewrite pow_IZR. reflexivity. } lia.
Qed.
(** With an odd number of rows the last line is shown twice as bright as the others: of a picture that is the same number everywhere it is full blocks, and the
    others are half-bright. *)
Theorem uniform_pictures_look_uniform_refuted : forall t r c f v, is_tensor t r c 1 f -> Nat.Odd r -> / 2 ^ 100 <= v <= 1 -> everywhere r c 1 (fun i j l => is_number (f i j l) /\ number (f i j l) = v) ->
  exists lines, decodeImage t = Ok lines /\ forall p j, (2 * p < r)%nat -> (j < c)%nat -> ((2 * p + 1 < r)%nat -> shows lines p j 2) /\ ((2 * p + 1 = r)%nat -> shows lines p j 4).
Proof.
  intros t r c f v T (m & Em) Hv B'. assert (P0 : 0 < / 2 ^ 100) by (apply Rinv_0_lt_compat; apply pow_lt; lra).
  assert (B : everywhere r c 1 (fun i j l => of_size (2 ^ 100) (f i j l))) by (intros i j l Hi Hj Hl; destruct (B' i j l Hi Hj Hl) as [X Y]; split; [exact X|]; rewrite Y, Rabs_pos_eq by lra; apply Rle_trans with (2 ^ 0); [lra|apply pow_up; lia]).
  destruct (picture_is t r c 1 f T (all_shades r c 1 f ltac:(lia) ltac:(lia) B)) as (lines & E & _ & _ & Sh). exists lines. split; [exact E|].
  assert (G : forall q x, (2 * q < r)%nat -> (x < c)%nat -> is_number (gray r 1 f (2 * q) x) /\ 0 <= number (gray r 1 f (2 * q) x) <= 1) by (intros q x Hq Hx; destruct (gray_is r c 1 f ltac:(lia) ltac:(lia) B (2 * q) x Hq Hx) as (N & _ & R); now split).
  destruct (largest_spec r c 1 f G) as (N & P & L & A).
  assert (V : forall p j, (2 * p < r)%nat -> (j < c)%nat -> number (gray r 1 f (2 * p) j) = if (2 * p + 1 <? r)%nat then v / 2 else v).
  { intros p j Hp Hj. assert (Fv : F32 v) by (rewrite <- (proj2 (B' (2 * p)%nat j 0%nat Hp Hj ltac:(lia))); apply number_format). destruct (gray_is r c 1 f ltac:(lia) ltac:(lia) B (2 * p) j Hp Hj) as (_ & -> & _). destruct (divisor_is r 1 ltac:(lia) ltac:(lia) (2 * p)) as (_ & -> & _). unfold mix. change (seen 1) with true. cbv iota. change (pix 1 f) with (fun i j => f i j 0%nat). cbv beta. destruct (Nat.ltb_spec (2 * p + 1) r) as [Q|Q].
    - rewrite (proj2 (B' (2 * p)%nat j 0%nat Hp Hj ltac:(lia))), (proj2 (B' (2 * p + 1)%nat j 0%nat Q Hj ltac:(lia))). replace (v + v) with (2 * v) by ring. rewrite (rnd_id (2 * v) (F32_twice v Fv)). replace (2 * v / 2) with v by field. rewrite (rnd_id v Fv). replace (INR (1 * 2)) with 2 by (cbn; ring). rewrite (rnd_id (v / 2) (F32_halved v Fv ltac:(lra))). rewrite Rmax_right, Rmin_right by lra. reflexivity.
    - rewrite (proj2 (B' (2 * p)%nat j 0%nat Hp Hj ltac:(lia))). replace (INR (1 * 1)) with 1 by (cbn; ring). replace (v / 1) with v by field. rewrite (rnd_id v Fv), Rmax_right, Rmin_right by lra. reflexivity. }
  intros p j Hp Hj. assert (Last : (2 * m < r)%nat) by lia. assert (Top : number (top r c 1 f) = v).
  { pose proof (L m j Last Hj) as L1. rewrite (V m j Last Hj) in L1. destruct (Nat.ltb_spec (2 * m + 1) r) as [Q|_]; [lia|]. destruct A as [(q & x & Hq & Hx & Eq)|A]; [rewrite (V q x Hq Hx) in Eq; destruct (2 * q + 1 <? r)%nat; lra|]. pose proof (A m j Last Hj) as A1. rewrite (V m j Last Hj) in A1. destruct (Nat.ltb_spec (2 * m + 1) r); [lia|lra]. }
  split; intros Q; apply Sh; try assumption; symmetry; [apply level_half|apply level_top]; try assumption; try apply (G p j Hp Hj); try apply P; rewrite (V p j Hp Hj), Top; destruct (Nat.ltb_spec (2 * p + 1) r); try lia; lra.
Qed.
Print Assumptions uniform_pictures_look_uniform_refuted.

(** ** Two channels *)
(** A picture with two channels is blank whatever it shows. *)
Theorem two_channels_are_shown_refuted : forall t r c f, is_tensor t r c 2 f -> exists lines, decodeImage t = Ok lines /\ forall p j, (2 * p < r)%nat -> (j < c)%nat -> shows lines p j 0.
Proof.
  intros t r c f T. set (z := fun _ _ _ : nat => float0). destruct float0_is as [N0 V0]. assert (B : everywhere r c 2 (fun i j l => of_size (2 ^ 100) (z i j l))) by (intros i j l _ _ _; split; [exact N0|]; unfold z; rewrite V0, Rabs_R0; apply pow_le; lra).
  assert (All : forall p j, (2 * p < r)%nat -> (j < c)%nat -> exists b, shade (top r c 2 f) (gray r 2 f (2 * p) j) = Ok b /\ brightness b = Some (level (top r c 2 f) (gray r 2 f (2 * p) j))) by exact (all_shades r c 2 z ltac:(lia) ltac:(lia) B).
  destruct (picture_is t r c 2 f T All) as (lines & E & _ & _ & Sh). exists lines. split; [exact E|]. intros p j Hp Hj. apply Sh; [exact Hp|exact Hj|]. symmetry. change (level (top r c 2 z) (gray r 2 z (2 * p) j) = 0%nat).
  assert (G : forall q x, (2 * q < r)%nat -> (x < c)%nat -> is_number (gray r 2 z (2 * q) x) /\ 0 <= number (gray r 2 z (2 * q) x) <= 1) by (intros q x Hq Hx; destruct (gray_is r c 2 z ltac:(lia) ltac:(lia) B (2 * q) x Hq Hx) as (N & _ & R); now split).
  destruct (largest_spec r c 2 z G) as (N & P & _). apply level_zero; [exact N|apply (G p j Hp Hj)|apply P|]. apply (gray_black r c 2 z ltac:(lia) ltac:(lia) B (2 * p) j Hp Hj). unfold mix. change (seen 2) with false. cbv iota. lra.
Qed.
Print Assumptions two_channels_are_shown_refuted.

(** ** NaN *)
Lemma fdiv_NaN_l : forall x y, is_NaN x -> is_NaN (fdiv x y).
Proof. intros [s|s|s pl e|s m e b] y H; try discriminate H. destruct y; reflexivity. Qed.
Lemma fmul_NaN_l : forall x y, is_NaN x -> is_NaN (fmul x y).
Proof. intros [s|s|s pl e|s m e b] y H; try discriminate H. destruct y; reflexivity. Qed.
Lemma fadd_NaN_any : forall x y, is_NaN x \/ is_NaN y -> is_NaN (fadd x y).
Proof. intros [s|s|s pl e|s m e b] y [H|H]; try discriminate H; destruct y; try discriminate H; reflexivity. Qed.
Lemma between_NaN : forall x, is_NaN x -> between_0_and_1 x = x.
Proof. intros [s|s|s pl e|s m e b] H; try discriminate H. reflexivity. Qed.
(** One NaN, and the character is read from an undefined place. *)
Theorem picture_with_NaN_refuted : forall t r c f i j, is_tensor t r c 1 f -> (i < r)%nat -> (j < c)%nat -> is_NaN (f i j 0%nat) -> decodeImage t = UB.
Proof.
  intros t r c f i j T Hi Hj H. unfold decodeImage. rewrite (gray_scales_is t r c 1 f T). cbn [obind]. set (L := largest_value (grays r c 1 f)). set (p := (i / 2)%nat). pose proof (Nat.div_mod i 2 ltac:(lia)) as D. pose proof (Nat.mod_upper_bound i 2 ltac:(lia)) as D2. fold p in D. assert (Hp : (2 * p < r)%nat) by lia.
  assert (NT : forall g, shade L g <> Throw). { intros g. unfold shade, to_size, to_unsigned. destruct (finite _); [|discriminate]. destruct (_ && _)%bool; [|discriminate]. cbn [obind]. unfold vec_at. destruct (nth_error _ _); discriminate. }
  assert (M : is_NaN (merged r 1 f (2 * p) j)). { unfold merged. change (seen 1) with true. cbv iota. change (pix 1 f) with (fun i j => f i j 0%nat). cbv beta. destruct (Nat.ltb_spec (2 * p + 1) r) as [Q|Q]; [apply fdiv_NaN_l; apply fadd_NaN_any; destruct (Nat.eq_dec i (2 * p)) as [Ei|Ei]; [left; rewrite <- Ei; exact H|right; replace (2 * p + 1)%nat with i by lia; exact H]|replace (2 * p)%nat with i by lia; exact H]. }
  assert (Gn : is_NaN (gray r 1 f (2 * p) j)) by (unfold gray; rewrite between_NaN; apply fdiv_NaN_l; exact M).
  assert (U : shade L (gray r 1 f (2 * p) j) = UB). { unfold shade, to_size, to_unsigned. pose proof (fmul_NaN_l _ (of_Z 4) (fdiv_NaN_l _ L Gn)) as Q. destruct (fmul _ _); try discriminate Q. reflexivity. }
  assert (I : In (gray r 1 f (2 * p) j) (concat (grays r c 1 f))) by (apply in_grays; exists p, j; now repeat split). apply in_concat in I as (l & Il & Ig). apply OneHot_Proofs.omapM_ub.
  - exists l. split; [exact Il|]. apply OneHot_Proofs.omapM_ub; [exists (gray r 1 f (2 * p) j); now split|]. intros g _. apply NT.
  - intros l' _. clear - NT. induction l' as [|g l' IH]; [discriminate|]. cbn [omapM]. destruct (shade L g) eqn:E; cbn [obind]; try discriminate; [|destruct (NT g E)]. destruct (omapM (shade L) l'); cbn [obind]; [discriminate|now destruct IH|discriminate].
Qed.
Print Assumptions picture_with_NaN_refuted.

(** ** Examples *)
Definition picture (l : list (list Z)) : FT := {| rows := length l; cols := length (hd [] l); chans := 1; get := fun i j k => Ok (of_Z (nth j (nth i l []) 0%Z)) |}.
Lemma picture_tensor : forall l, is_tensor (picture l) (length l) (length (hd [] l)) 1 (fun i j _ => of_Z (nth j (nth i l []) 0%Z)).
Proof. intros l. repeat split; reflexivity. Qed.
(** Four rows of two numbers: two lines, the brighter of which is full. *)
Example ex_picture : exists lines, decodeImage (picture [[1; 0]; [1; 0]; [0; 1]; [0; 0]]%Z) = Ok lines /\ length lines = 2%nat /\ exists p j, shows lines p j 4.
Proof.
  assert (B : everywhere 4 2 1 (fun i j l => of_size (2 ^ 100) (of_Z (nth j (nth i [[1; 0]; [1; 0]; [0; 1]; [0; 0]] []) 0)%Z) /\ 0 <= number (of_Z (nth j (nth i [[1; 0]; [1; 0]; [0; 1]; [0; 0]] []) 0)%Z))).
  { assert (Q : forall z, (0 <= z <= 1)%Z -> of_size (2 ^ 100) (of_Z z) /\ 0 <= number (of_Z z)). { intros z Hz. destruct (whole z ltac:(lia)) as [N V]. split; [split; [exact N|]|]; rewrite V; [rewrite <- abs_IZR; apply Rle_trans with (2 ^ 0); [apply IZR_le; lia|apply pow_up; lia]|apply IZR_le; lia]. }
    intros i j l Hi Hj Hl. apply Q. destruct i as [|[|[|[|i]]]]; destruct j as [|[|j]]; cbn [nth]; lia. }
  destruct (picture_shape _ 4 2 1 _ (picture_tensor [[1; 0]; [1; 0]; [0; 1]; [0; 0]]%Z) ltac:(lia) ltac:(lia) (fun i j l Hi Hj Hl => proj1 (B i j l Hi Hj Hl))) as (lines & E & L & _). exists lines. split; [exact E|]. split; [exact L|].
  destruct (brightest_spot_is_full _ 4 2 1 _ (picture_tensor [[1; 0]; [1; 0]; [0; 1]; [0; 0]]%Z) ltac:(now left) ltac:(lia) B) as (lines' & E' & F & _). rewrite E in E'. injection E' as <-. destruct F as (p & j & _ & _ & S); [|now exists p, j]. exists 0%nat, 0%nat, 0%nat. split; [lia|]. split; [lia|]. split; [cbn; lia|]. cbn [nth]. rewrite (proj2 (whole 1 ltac:(lia))). rewrite <- Rinv_1. apply Rinv_le; [lra|]. apply pow_R1_Rle. lra.
Qed.
(** Three white rows: half-bright, then full. *)
Example ex_odd_picture : decodeImage (picture [[1; 1]; [1; 1]; [1; 1]]%Z) = Ok [[177; 177]; [219; 219]]%N.
Proof. reflexivity. Qed.
Example ex_shades : decodeImage (picture [[0; 1; 2]; [0; 0; 0]]%Z) = Ok [[32; 177; 219]]%N.
Proof. reflexivity. Qed.
