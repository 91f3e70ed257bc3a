(** Proofs about pictures shown as text. *)
From Coq Require Import List Arith Bool ZArith NArith Reals Lia Lra.
From Flocq Require Import Core IEEE754.BinarySingleNaN IEEE754.Binary IEEE754.Bits.
From Verif Require Import Outcome Tensor_Model Tensor_Spec F32_Model F32_Proofs Reduce_Model FloatNet_Model FloatNet_Spec FloatNet_Proofs FloatSoft_Proofs FloatAct_Proofs FloatOpt_Model FloatOpt_Spec FloatOpt_Proofs FloatLoss_Proofs Picture_Model Picture_Spec.
From Verif Require OneHot_Proofs.
Import ListNotations.
Local Open Scope R_scope.

Lemma rnd_size x n : Rabs x <= 2 ^ n -> Rabs (rnd x) <= 2 ^ n.
Proof. intros H. apply abs_round_le_generic; [typeclasses eauto|typeclasses eauto|apply F32_2n|exact H]. Qed.
Lemma pow_up a b : (a <= b)%nat -> 2 ^ a <= 2 ^ b.
Proof. intros H. apply Rle_pow; [lra|exact H]. Qed.
Lemma pow_next n : 2 ^ S n = 2 * 2 ^ n.
Proof. reflexivity. Qed.

(** ** One shade *)
Definition level (largest gray : F) : nat := Z.to_nat (Ztrunc (number (fmul (fdiv gray largest) (of_Z 4)))).
Lemma quotient_is L g : is_number L -> is_number g -> 0 < number L -> 0 <= number g <= number L ->
  is_number (fmul (fdiv g L) (of_Z 4)) /\ number (fmul (fdiv g L) (of_Z 4)) = rnd (4 * rnd (number g / number L)) /\ 0 <= number g / number L <= 1 /\ 0 <= rnd (number g / number L) <= 1.
Proof.
  intros NL Ng PL Bg. pose proof p127. assert (Q : 0 <= number g / number L <= 1). { split; [apply Rmult_le_pos; [lra|left; now apply Rinv_0_lt_compat]|]. apply Rmult_le_reg_r with (number L); [lra|]. unfold Rdiv. rewrite Rmult_assoc, Rinv_l by lra. lra. }
  destruct (div_is g L Ng ltac:(lra)) as [N1 V1]; [rewrite Rabs_pos_eq; lra|]. assert (R1 : 0 <= rnd (number g / number L) <= 1) by (split; [apply rnd_ge0; lra|apply rnd_le_F; [apply F32_1|lra]]).
  destruct (small_is 4 ltac:(lia)) as [N4 V4]. assert (P2 : 2 ^ 2 <= 2 ^ 127) by (apply pow_up; lia). destruct (mul_is (fdiv g L) (of_Z 4) N1 N4) as [N2 V2]; [rewrite V1, V4, Rabs_pos_eq; lra|]. rewrite V1, V4 in V2. split; [exact N2|]. split; [rewrite V2; f_equal; ring|]. now split.
Qed.
Lemma level_range L g : is_number L -> is_number g -> 0 < number L -> 0 <= number g <= number L -> 0 <= number (fmul (fdiv g L) (of_Z 4)) <= 4.
Proof.
  intros NL Ng PL Bg. destruct (quotient_is L g NL Ng PL Bg) as (_ & -> & _ & R). split; [apply rnd_ge0; lra|]. apply rnd_le_F; [apply (F32_small 4); lia|lra].
Qed.
Lemma level_le_4 L g : is_number L -> is_number g -> 0 < number L -> 0 <= number g <= number L -> (level L g <= 4)%nat.
Proof. intros NL Ng PL Bg. pose proof (level_range L g NL Ng PL Bg) as [A B]. unfold level. apply Ztrunc_le in B. rewrite Ztrunc_IZR in B. lia. Qed.
Lemma shade_is L g : is_number L -> is_number g -> 0 < number L -> 0 <= number g <= number L -> exists b, shade L g = Ok b /\ brightness b = Some (level L g).
Proof.
  intros NL Ng PL Bg. pose proof (level_range L g NL Ng PL Bg) as R. pose proof (level_le_4 L g NL Ng PL Bg) as L4. destruct (quotient_is L g NL Ng PL Bg) as (N & _). unfold level in *. set (q := fmul (fdiv g L) (of_Z 4)) in *.
  unfold shade. fold q. unfold to_size, to_unsigned. change (finite q) with (is_finite 24 128 q). rewrite N, Btrunc_val. change (val q) with (number q). set (z := Ztrunc (number q)) in *. assert (Z0 : (0 <= z)%Z) by (unfold z; rewrite <- (Ztrunc_IZR 0); apply Ztrunc_le; apply R).
  destruct (Z.leb_spec 0 z) as [_|]; [|lia]. destruct (Z.ltb_spec z (2 ^ 64)) as [_|]; [|lia]. cbn [andb obind]. replace (N.to_nat (Z.to_N z)) with (Z.to_nat z) by lia. clearbody z. destruct (Z.to_nat z) as [|[|[|[|[|n]]]]]; try lia; eexists; (split; [reflexivity|reflexivity]).
Qed.
Lemma level_mono L g g' : is_number L -> is_number g -> is_number g' -> 0 < number L -> 0 <= number g <= number g' -> number g' <= number L -> (level L g <= level L g')%nat.
Proof.
  intros NL Ng Ng' PL Bg Bg'. destruct (quotient_is L g NL Ng PL ltac:(lra)) as (_ & V & _). destruct (quotient_is L g' NL Ng' PL ltac:(lra)) as (_ & V' & _). unfold level. rewrite V, V'.
  assert (Q : (Ztrunc (rnd (4 * rnd (number g / number L))) <= Ztrunc (rnd (4 * rnd (number g' / number L))))%Z); [|lia]. apply Ztrunc_le. apply rnd_le. apply Rmult_le_compat_l; [lra|]. apply rnd_le. apply Rmult_le_compat_r; [left; now apply Rinv_0_lt_compat|lra].
Qed.
Lemma level_top L g : is_number L -> is_number g -> 0 < number L -> number g = number L -> level L g = 4%nat.
Proof.
  intros NL Ng PL E. destruct (quotient_is L g NL Ng PL ltac:(lra)) as (_ & V & _). unfold level. rewrite V, E. unfold Rdiv. rewrite Rinv_r by lra. rewrite (rnd_id 1 F32_1), Rmult_1_r, (rnd_id 4) by (apply (F32_small 4); lia). now rewrite Ztrunc_IZR.
Qed.
Lemma level_zero L g : is_number L -> is_number g -> 0 < number L -> number g = 0 -> level L g = 0%nat.
Proof.
  intros NL Ng PL E. destruct (quotient_is L g NL Ng PL ltac:(lra)) as (_ & V & _). unfold level. rewrite V, E. unfold Rdiv. rewrite Rmult_0_l, rnd_0, Rmult_0_r, rnd_0. change 0 with (IZR 0). now rewrite Ztrunc_IZR.
Qed.
Lemma level_half L g : is_number L -> is_number g -> 0 < number L -> number g = number L / 2 -> level L g = 2%nat.
Proof.
  intros NL Ng PL E. destruct (quotient_is L g NL Ng PL ltac:(lra)) as (_ & V & _). unfold level. rewrite V, E. replace (number L / 2 / number L) with (/ 2) by (field; lra). assert (F32 (/ 2)) by (destruct half_is as [_ <-]; apply number_format).
  rewrite (rnd_id (/ 2)) by assumption. replace (4 * / 2) with 2 by lra. rewrite (rnd_id 2) by (apply (F32_small 2); lia). now rewrite Ztrunc_IZR.
Qed.

(** ** One pixel *)
Lemma between_is v : is_number v -> is_number (between_0_and_1 v) /\ number (between_0_and_1 v) = Rmin 1 (Rmax 0 (number v)).
Proof.
  intros N. destruct float0_is as [N0 V0]. destruct float1_is as [N1 V1]. unfold between_0_and_1. destruct (flt v float0) eqn:E1.
  - apply (flt_true v float0 N N0) in E1. fold (number v) (number float0) in E1. split; [exact N0|]. rewrite V0 in *. rewrite Rmax_left, Rmin_right by lra. reflexivity.
  - assert (A : ~ number v < 0) by (rewrite <- V0; intros Q; apply (flt_true v float0 N N0) in Q; congruence). rewrite Rmax_right by lra. destruct (fgt v float1) eqn:E2.
    + apply (fgt_true v float1 N N1) in E2. fold (number v) (number float1) in E2. split; [exact N1|]. rewrite V1 in *. rewrite Rmin_left by lra. reflexivity.
    + assert (B : ~ 1 < number v) by (rewrite <- V1; intros Q; apply (fgt_true v float1 N N1) in Q; congruence). split; [exact N|]. rewrite Rmin_right by lra. reflexivity.
Qed.
Lemma weights_are : (is_number red_weight /\ number red_weight = 10032775 / 33554432) /\ (is_number green_weight /\ number green_weight = 9848226 / 16777216) /\ (is_number blue_weight /\ number blue_weight = 15300821 / 134217728).
Proof.
  split; [|split]; [destruct (literal_is 10032775 (-25) ltac:(lia) ltac:(lia)) as [N V]; split; [exact N|]; unfold red_weight|destruct (literal_is 9848226 (-24) ltac:(lia) ltac:(lia)) as [N V]; split; [exact N|]; unfold green_weight|destruct (literal_is 15300821 (-27) ltac:(lia) ltac:(lia)) as [N V]; split; [exact N|]; unfold blue_weight]; rewrite V; reflexivity.
Qed.
Definition light (a b c : R) : R := rnd (rnd (rnd (number red_weight * a) + rnd (number green_weight * b)) + rnd (number blue_weight * c)).
Lemma part_is w x : is_number w -> 0 < number w <= 1 -> of_size (2 ^ 100) x -> is_number (fmul w x) /\ number (fmul w x) = rnd (number w * number x) /\ Rabs (number (fmul w x)) <= 2 ^ 100.
Proof.
  intros Nw Bw [Nx Bx]. assert (S : Rabs (number w * number x) <= 2 ^ 100). { rewrite Rabs_mult, (Rabs_pos_eq (number w)) by lra. pose proof (Rabs_pos (number x)). apply Rle_trans with (1 * Rabs (number x)); [apply Rmult_le_compat_r; lra|lra]. }
  assert (P : 2 ^ 100 <= 2 ^ 127) by (apply pow_up; lia). destruct (mul_is w x Nw Nx ltac:(lra)) as [N V]. split; [exact N|]. split; [exact V|]. rewrite V. now apply rnd_size.
Qed.
Lemma sum_is x y n : (n < 127)%nat -> of_size (2 ^ n) x -> of_size (2 ^ n) y -> is_number (fadd x y) /\ number (fadd x y) = rnd (number x + number y) /\ Rabs (number (fadd x y)) <= 2 ^ S n.
Proof.
  intros Hn [Nx Bx] [Ny By]. assert (W : Rabs (number x + number y) <= 2 ^ S n) by (rewrite pow_next; pose proof (Rabs_triang (number x) (number y)); lra). assert (P : 2 ^ S n <= 2 ^ 127) by (apply pow_up; lia).
  destruct (add_is x y Nx Ny ltac:(lra)) as [N V]. split; [exact N|]. split; [exact V|]. rewrite V. now apply rnd_size.
Qed.
Lemma luminance_is a b c : of_size (2 ^ 100) a -> of_size (2 ^ 100) b -> of_size (2 ^ 100) c -> is_number (luminance a b c) /\ number (luminance a b c) = light (number a) (number b) (number c) /\ Rabs (number (luminance a b c)) <= 2 ^ 102.
Proof.
  intros Ha Hb Hc. destruct weights_are as ((NR & VR) & (NG & VG) & (NB & VB)). destruct (part_is red_weight a NR ltac:(lra) Ha) as (N1 & V1 & S1). destruct (part_is green_weight b NG ltac:(lra) Hb) as (N2 & V2 & S2). destruct (part_is blue_weight c NB ltac:(lra) Hc) as (N3 & V3 & S3).
  destruct (sum_is _ _ 100 ltac:(lia) (conj N1 S1) (conj N2 S2)) as (N4 & V4 & S4). assert (P : 2 ^ 100 <= 2 ^ 101) by (apply pow_up; lia). destruct (sum_is _ _ 101 ltac:(lia) (conj N4 S4) (conj N3 (Rle_trans _ _ _ S3 P))) as (N5 & V5 & S5).
  unfold luminance. split; [exact N5|]. split; [|exact S5]. rewrite V5, V4, V1, V2, V3. reflexivity.
Qed.
Lemma light_mono a b c a' b' c' : a <= a' -> b <= b' -> c <= c' -> light a b c <= light a' b' c'.
Proof.
  intros A B C. destruct weights_are as ((_ & VR) & (_ & VG) & (_ & VB)). unfold light. apply rnd_le. apply Rplus_le_compat; [apply rnd_le; apply Rplus_le_compat|]; apply rnd_le; apply Rmult_le_compat_l; lra.
Qed.
Lemma F32_small_power n : (n <= 149)%nat -> F32 (/ 2 ^ n).
Proof. intros H. replace (/ 2 ^ n) with (bpow radix2 (- Z.of_nat n)); [apply F32_bpow; lia|]. rewrite bpow_opp. f_equal. induction n as [|n IH]; [reflexivity|]. rewrite pow_next, <- IH by lia. replace (Z.of_nat (S n)) with (1 + Z.of_nat n)%Z by lia. rewrite bpow_plus. reflexivity. Qed.
Lemma light_pos a b c : 0 <= a -> 0 <= b -> 0 <= c -> / 2 ^ 100 <= a \/ / 2 ^ 100 <= b \/ / 2 ^ 100 <= c -> / 2 ^ 104 <= light a b c.
Proof.
  intros A B C H. destruct weights_are as ((_ & VR) & (_ & VG) & (_ & VB)). unfold light. assert (P : / 2 ^ 104 = / 16 * / 2 ^ 100) by (rewrite <- Rinv_mult; f_equal; replace 16 with (2 ^ 4) by lra; rewrite <- pow_add; reflexivity).
  assert (F104 : F32 (/ 2 ^ 104)) by (apply F32_small_power; lia). assert (P0 : 0 < / 2 ^ 100) by (apply Rinv_0_lt_compat; apply pow_lt; lra). set (e := / 2 ^ 104) in *. set (d := / 2 ^ 100) in *.
  assert (W : forall w x, / 16 <= w -> 0 <= x -> 0 <= rnd (w * x) /\ (d <= x -> e <= rnd (w * x))). { intros w x Hw Hx. split; [apply rnd_ge0; apply Rmult_le_pos; lra|]. intros Q. apply rnd_ge_F; [exact F104|]. rewrite P. apply Rmult_le_compat; lra. }
  destruct (W (number red_weight) a ltac:(lra) A) as [A1 A2]. destruct (W (number green_weight) b ltac:(lra) B) as [B1 B2]. destruct (W (number blue_weight) c ltac:(lra) C) as [C1 C2]. set (x := rnd (number red_weight * a)) in *. set (y := rnd (number green_weight * b)) in *. set (z := rnd (number blue_weight * c)) in *.
  assert (S0 : 0 <= rnd (x + y)) by (apply rnd_ge0; lra). apply rnd_ge_F; [exact F104|]. destruct H as [H|[H|H]]; [specialize (A2 H); assert (e <= rnd (x + y)) by (apply rnd_ge_F; [exact F104|lra]); lra|specialize (B2 H); assert (e <= rnd (x + y)) by (apply rnd_ge_F; [exact F104|lra]); lra|specialize (C2 H); lra].
Qed.

(** ** A picture *)
Section Picture.
Context (t : FT) (r c k : nat) (f : nat -> nat -> nat -> F) (T : is_tensor t r c k f).
Definition seen : bool := ((3 <=? k) || (k =? 1))%nat.
Definition pix (i j : nat) : F := if (3 <=? k)%nat then luminance (f i j 0%nat) (f i j 1%nat) (f i j 2%nat) else f i j 0%nat.
Definition merged (i j : nat) : F := if seen then (if (i + 1 <? r)%nat then fdiv (fadd (pix i j) (pix (i + 1) j)) (of_Z 2) else pix i j) else float0.
Definition divisor (i : nat) : F := of_Z (Z.of_nat (k * (if (i + 1 <? r)%nat then 2 else 1))).
Definition gray (i j : nat) : F := between_0_and_1 (fdiv (merged i j) (divisor i)).
Definition grays : list (list F) := map (fun p => map (fun j => gray (2 * p) j) (seq 0 c)) (seq 0 ((r + 1) / 2)).
Lemma pixel_is i j : (0 < k)%nat -> (i < r)%nat -> (j < c)%nat -> pixel t i j = Ok (pix i j).
Proof. destruct T as (_ & _ & T3 & H). intros K Hi Hj. unfold pixel, pix. rewrite T3. destruct (Nat.leb_spec 3 k) as [Q|Q]; [|now apply H]. rewrite !H by lia. reflexivity. Qed.
Lemma gray_scale_is i j : (i < r)%nat -> (j < c)%nat -> gray_scale t i j = Ok (gray i j).
Proof.
  pose proof T as (T1 & _ & T3 & _). intros Hi Hj. unfold gray_scale, gray, merged, divisor. rewrite T1, T3. fold seen. destruct seen eqn:E; [|reflexivity]. assert (K : (0 < k)%nat). { unfold seen in E. apply orb_true_iff in E as [E|E]; [apply Nat.leb_le in E|apply Nat.eqb_eq in E]; lia. }
  rewrite (pixel_is i j K Hi Hj). cbn [obind]. destruct (Nat.ltb_spec (i + 1) r) as [Q|Q]; [|reflexivity]. rewrite (pixel_is (i + 1) j K Q Hj). reflexivity.
Qed.
Lemma pair_row p : (p < (r + 1) / 2)%nat <-> (2 * p < r)%nat.
Proof. pose proof (Nat.div_mod (r + 1) 2 ltac:(lia)). pose proof (Nat.mod_upper_bound (r + 1) 2 ltac:(lia)). lia. Qed.
Lemma gray_scales_is : gray_scales t = Ok grays.
Proof.
  pose proof T as (T1 & T2 & _ & _). unfold gray_scales, grays. rewrite T1, T2. apply OneHot_Proofs.omapM_map_ok. intros p Hp. apply in_seq in Hp. apply OneHot_Proofs.omapM_map_ok. intros j Hj. apply in_seq in Hj. apply gray_scale_is; [apply pair_row|]; lia.
Qed.
Lemma in_grays g : In g (concat grays) <-> exists p j, (2 * p < r)%nat /\ (j < c)%nat /\ g = gray (2 * p) j.
Proof.
  unfold grays. rewrite in_concat. split.
  - intros (l & Hl & Hg). apply in_map_iff in Hl as (p & <- & Hp). apply in_map_iff in Hg as (j & <- & Hj). apply in_seq in Hp, Hj. exists p, j. split; [apply pair_row; lia|]. split; [lia|reflexivity].
  - intros (p & j & Hp & Hj & ->). apply pair_row in Hp. exists (map (fun j => gray (2 * p) j) (seq 0 c)). split; apply in_map_iff; [exists p|exists j]; (split; [reflexivity|apply in_seq; lia]).
Qed.
Definition top : F := largest_value grays.
Lemma picture_is : (forall p j, (2 * p < r)%nat -> (j < c)%nat -> exists b, shade top (gray (2 * p) j) = Ok b /\ brightness b = Some (level top (gray (2 * p) j))) ->
  exists lines, decodeImage t = Ok lines /\ length lines = ((r + 1) / 2)%nat /\ (forall line, In line lines -> length line = c /\ forall b, In b line -> brightness b <> None) /\
  forall p j b, (2 * p < r)%nat -> (j < c)%nat -> (shows lines p j b <-> b = level top (gray (2 * p) j)).
Proof.
  intros H. unfold decodeImage. rewrite gray_scales_is. cbn [obind]. fold top. set (paint := fun g => match shade top g with Ok b => b | _ => 0%N end).
  assert (E : omapM (omapM (shade top)) grays = Ok (map (map paint) grays)).
  { apply OneHot_Proofs.omapM_map_ok. intros l Hl. apply OneHot_Proofs.omapM_map_ok. intros g Hg. assert (I : In g (concat grays)) by (apply in_concat; now exists l). apply in_grays in I as (p & j & Hp & Hj & ->). destruct (H p j Hp Hj) as (b & Eb & _). unfold paint. now rewrite Eb. }
  exists (map (map paint) grays). split; [exact E|]. split; [unfold grays; now rewrite !map_length, seq_length|]. split.
  - intros line Hl. apply in_map_iff in Hl as (l & <- & Hl). split.
    + unfold grays in Hl. apply in_map_iff in Hl as (p & <- & _). now rewrite !map_length, seq_length.
    + intros b Hb. apply in_map_iff in Hb as (g & <- & Hg). assert (I : In g (concat grays)) by (apply in_concat; now exists l). apply in_grays in I as (p & j & Hp & Hj & ->). destruct (H p j Hp Hj) as (b & Eb & Bb). unfold paint. rewrite Eb, Bb. discriminate.
  - intros p j b Hp Hj. destruct (H p j Hp Hj) as (b0 & Eb & Bb).
    assert (N1 : nth_error (map (map paint) grays) p = Some (map paint (map (fun j => gray (2 * p) j) (seq 0 c)))). { unfold grays. rewrite map_map. apply map_nth_error with (f := fun x => map paint (map (fun j => gray (2 * x) j) (seq 0 c))) (d := p). rewrite (nth_error_nth' _ 0%nat) by (rewrite seq_length; apply pair_row; exact Hp). rewrite seq_nth by (apply pair_row; exact Hp). reflexivity. }
    assert (N2 : nth_error (map paint (map (fun j => gray (2 * p) j) (seq 0 c))) j = Some b0). { rewrite map_map. replace b0 with (paint (gray (2 * p) j)) by (unfold paint; now rewrite Eb). apply map_nth_error with (f := fun x => paint (gray (2 * p) x)) (d := j). rewrite (nth_error_nth' _ 0%nat) by (rewrite seq_length; exact Hj). rewrite seq_nth by exact Hj. reflexivity. }
    split.
    + intros (text & ch & H1 & H2 & H3). rewrite N1 in H1. assert (X : text = map paint (map (fun j => gray (2 * p) j) (seq 0 c))) by congruence. rewrite X, N2 in H2. assert (Y : ch = b0) by congruence. rewrite Y, Bb in H3. congruence.
    + intros ->. eexists. exists b0. split; [exact N1|]. split; [exact N2|exact Bb].
Qed.

(** Grays that are numbers from 0 to 1. *)
Lemma largest_spec : (forall p j, (2 * p < r)%nat -> (j < c)%nat -> is_number (gray (2 * p) j) /\ 0 <= number (gray (2 * p) j) <= 1) ->
  is_number top /\ 0 < number top <= 1 /\ (forall p j, (2 * p < r)%nat -> (j < c)%nat -> number (gray (2 * p) j) <= number top) /\
  ((exists p j, (2 * p < r)%nat /\ (j < c)%nat /\ number (gray (2 * p) j) = number top) \/ forall p j, (2 * p < r)%nat -> (j < c)%nat -> number (gray (2 * p) j) = 0).
Proof.
  intros H. destruct float0_is as [N0 V0]. destruct float1_is as [N1 V1].
  assert (G : forall l a, is_number a -> 0 <= number a <= 1 -> (forall g, In g l -> is_number g /\ 0 <= number g <= 1) -> let m := fold_left std_max l a in is_number m /\ 0 <= number m <= 1 /\ number a <= number m /\ (forall g, In g l -> number g <= number m) /\ (number m = number a \/ exists g, In g l /\ number g = number m)).
  { induction l as [|g l IH]; intros a Na Ba Hl m; [cbn in m; subst m; split; [exact Na|]; split; [exact Ba|]; split; [lra|]; split; [intros g []|now left]|].
    destruct (Hl g (or_introl eq_refl)) as [Ng Bg]. assert (S : is_number (std_max a g) /\ number (std_max a g) = Rmax (number a) (number g)). { unfold std_max. destruct (flt a g) eqn:E; [apply (flt_true a g Na Ng) in E; fold (number a) (number g) in E; rewrite Rmax_right by lra; now split|]. assert (Q : ~ number a < number g) by (intros Q; apply (flt_true a g Na Ng) in Q; congruence). rewrite Rmax_left by lra. now split. }
    destruct S as [Ns Vs]. pose proof (Rmax_l (number a) (number g)) as M1. pose proof (Rmax_r (number a) (number g)) as M2. assert (M3 : Rmax (number a) (number g) <= 1) by (apply Rmax_lub; lra).
    destruct (IH (std_max a g) Ns ltac:(lra) (fun x Hx => Hl x (or_intror Hx))) as (I1 & I2 & I3 & I4 & I5). change (fold_left std_max l (std_max a g)) with m in *. split; [exact I1|]. split; [exact I2|]. split; [lra|]. split; [intros x [<-|Hx]; [lra|now apply I4]|].
    destruct I5 as [I5|(x & Ix & Ex)]; [|right; exists x; split; [now right|exact Ex]]. rewrite Vs in I5. unfold Rmax in I5. destruct (Rle_dec (number a) (number g)); [right; exists g; split; [now left|lra]|now left]. }
  destruct (G (concat grays) float0 N0 ltac:(lra)) as (A1 & A2 & A3 & A4 & A5); [intros g Hg; apply in_grays in Hg as (p & j & Hp & Hj & ->); now apply H|].
  unfold top, largest_value. set (m := fold_left std_max (concat grays) float0) in *. destruct (feq m float0) eqn:E.
  - apply (feq_true m float0 A1 N0) in E. rewrite V0 in E. assert (Z : forall p j, (2 * p < r)%nat -> (j < c)%nat -> number (gray (2 * p) j) = 0). { intros p j Hp Hj. assert (I : In (gray (2 * p) j) (concat grays)) by (apply in_grays; now exists p, j). specialize (A4 _ I). destruct (H p j Hp Hj) as [_ B]. lra. }
    rewrite V1. split; [exact N1|]. split; [lra|]. split; [intros p j Hp Hj; rewrite (Z p j Hp Hj); lra|now right].
  - assert (Q : number m <> 0) by (intros Q; rewrite <- V0 in Q; apply (feq_true m float0 A1 N0) in Q; congruence). split; [exact A1|]. split; [lra|]. split; [intros p j Hp Hj; apply A4; apply in_grays; now exists p, j|]. left.
    destruct A5 as [A5|(g & Ig & Eg)]; [lra|]. apply in_grays in Ig as (p & j & Hp & Hj & ->). now exists p, j.
Qed.

Context (K : (0 < k)%nat) (K2 : (Z.of_nat k <= 1048576)%Z).
Lemma divisor_is i : is_number (divisor i) /\ number (divisor i) = INR (k * (if (i + 1 <? r)%nat then 2 else 1)) /\ 1 <= number (divisor i) <= 2097152.
Proof.
  unfold divisor. set (n := (k * (if (i + 1 <? r)%nat then 2 else 1))%nat). assert (Hn : (1 <= Z.of_nat n <= 2097152)%Z) by (unfold n; destruct (i + 1 <? r)%nat; lia). destruct (small_is (Z.of_nat n) ltac:(lia)) as [N V]. split; [exact N|]. rewrite V, INR_IZR_INZ. split; [reflexivity|]. split; apply IZR_le; lia.
Qed.
Context (B : forall i j l, (i < r)%nat -> (j < c)%nat -> (l < k)%nat -> of_size (2 ^ 100) (f i j l)).
Lemma pix_is i j : (i < r)%nat -> (j < c)%nat -> of_size (2 ^ 102) (pix i j) /\ number (pix i j) = (if (3 <=? k)%nat then light (number (f i j 0%nat)) (number (f i j 1%nat)) (number (f i j 2%nat)) else number (f i j 0%nat)).
Proof.
  intros Hi Hj. unfold pix. destruct (Nat.leb_spec 3 k) as [Q|Q].
  - destruct (luminance_is (f i j 0%nat) (f i j 1%nat) (f i j 2%nat)) as (N & V & S); try (apply B; lia). split; [split; [exact N|exact S]|exact V].
  - destruct (B i j 0%nat Hi Hj K) as [N S]. split; [split; [exact N|]|reflexivity]. apply Rle_trans with (2 ^ 100); [exact S|apply pow_up; lia].
Qed.
Definition mix (i j : nat) : R := if seen then (if (i + 1 <? r)%nat then rnd (rnd (number (pix i j) + number (pix (i + 1) j)) / 2) else number (pix i j)) else 0.
Lemma merged_is i j : (i < r)%nat -> (j < c)%nat -> is_number (merged i j) /\ number (merged i j) = mix i j /\ Rabs (number (merged i j)) <= 2 ^ 103.
Proof.
  intros Hi Hj. unfold merged, mix. destruct seen.
  - destruct (pix_is i j Hi Hj) as [[N S] _]. destruct (Nat.ltb_spec (i + 1) r) as [Q|Q].
    + destruct (pix_is (i + 1) j Q Hj) as [[N' S'] _]. destruct (sum_is _ _ 102 ltac:(lia) (conj N S) (conj N' S')) as (N1 & V1 & S1). destruct (small_is 2 ltac:(lia)) as [N2 V2].
      assert (S2 : Rabs (number (fadd (pix i j) (pix (i + 1) j)) / 2) <= 2 ^ 103) by (unfold Rdiv; rewrite Rabs_mult, (Rabs_pos_eq (/ 2)) by lra; pose proof (Rabs_pos (number (fadd (pix i j) (pix (i + 1) j)))); lra). assert (P : 2 ^ 103 <= 2 ^ 127) by (apply pow_up; lia).
      destruct (div_is (fadd (pix i j) (pix (i + 1) j)) (of_Z 2) N1) as [N3 V3]; [rewrite V2; lra|rewrite V2; lra|]. split; [exact N3|]. rewrite V2 in V3. split; [rewrite V3, V1; reflexivity|rewrite V3; apply rnd_size; exact S2].
    + split; [exact N|]. split; [reflexivity|]. apply Rle_trans with (2 ^ 102); [exact S|apply pow_up; lia].
  - destruct float0_is as [N V]. split; [exact N|]. split; [exact V|]. rewrite V, Rabs_R0. apply pow_le. lra.
Qed.
Lemma gray_is i j : (i < r)%nat -> (j < c)%nat -> is_number (gray i j) /\ number (gray i j) = Rmin 1 (Rmax 0 (rnd (mix i j / number (divisor i)))) /\ 0 <= number (gray i j) <= 1.
Proof.
  intros Hi Hj. destruct (merged_is i j Hi Hj) as (N & V & S). destruct (divisor_is i) as (Nd & _ & Bd). assert (P : 2 ^ 103 <= 2 ^ 127) by (apply pow_up; lia).
  assert (I : 0 < / number (divisor i) <= 1) by (split; [apply Rinv_0_lt_compat; lra|rewrite <- Rinv_1; apply Rinv_le; lra]).
  destruct (div_is (merged i j) (divisor i) N ltac:(lra)) as [Nq Vq]. { unfold Rdiv. rewrite Rabs_mult, (Rabs_pos_eq (/ number (divisor i))) by lra. pose proof (Rabs_pos (number (merged i j))). apply Rle_trans with (Rabs (number (merged i j)) * 1); [apply Rmult_le_compat_l; lra|lra]. }
  destruct (between_is _ Nq) as [Nb Vb]. unfold gray. split; [exact Nb|]. rewrite V in Vq. rewrite Vb, Vq. split; [reflexivity|]. split; [apply Rmin_glb; [lra|apply Rmax_l]|apply Rmin_l].
Qed.
Lemma all_shades p j : (2 * p < r)%nat -> (j < c)%nat -> exists b, shade top (gray (2 * p) j) = Ok b /\ brightness b = Some (level top (gray (2 * p) j)).
Proof.
  intros Hp Hj. destruct largest_spec as (N & P & L & _); [intros p' j' Hp' Hj'; destruct (gray_is (2 * p') j' Hp' Hj') as (N & _ & R); now split|]. destruct (gray_is (2 * p) j Hp Hj) as (Ng & _ & R). apply shade_is; try assumption; [apply P|]. split; [apply R|now apply L].
Qed.
Lemma pix_mono i j i' j' : (i < r)%nat -> (j < c)%nat -> (i' < r)%nat -> (j' < c)%nat -> (forall l, (l < k)%nat -> number (f i j l) <= number (f i' j' l)) -> number (pix i j) <= number (pix i' j').
Proof.
  intros Hi Hj Hi' Hj' H. rewrite (proj2 (pix_is i j Hi Hj)), (proj2 (pix_is i' j' Hi' Hj')). destruct (Nat.leb_spec 3 k) as [Q|Q]; [apply light_mono; apply H; lia|now apply H].
Qed.
Lemma gray_mono i j i' j' : (i < r)%nat -> (j < c)%nat -> (i' < r)%nat -> (j' < c)%nat -> (i + 1 <? r)%nat = (i' + 1 <? r)%nat ->
  (forall l, (l < k)%nat -> number (f i j l) <= number (f i' j' l)) -> ((i + 1 < r)%nat -> forall l, (l < k)%nat -> number (f (i + 1)%nat j l) <= number (f (i' + 1)%nat j' l)) -> number (gray i j) <= number (gray i' j').
Proof.
  intros Hi Hj Hi' Hj' E H1 H2. destruct (gray_is i j Hi Hj) as (_ & -> & _). destruct (gray_is i' j' Hi' Hj') as (_ & -> & _). assert (D : number (divisor i) = number (divisor i')) by (unfold divisor; now rewrite E). rewrite <- D. destruct (divisor_is i) as (_ & _ & Bd).
  assert (M : mix i j <= mix i' j').
  { unfold mix. rewrite <- E. destruct seen; [|lra]. pose proof (pix_mono i j i' j' Hi Hj Hi' Hj' H1) as M1. destruct (Nat.ltb_spec (i + 1) r) as [Q|Q]; [|exact M1]. symmetry in E. apply Nat.ltb_lt in E. pose proof (pix_mono (i + 1) j (i' + 1) j' Q Hj E Hj' (H2 Q)) as M2. apply rnd_le. assert (rnd (number (pix i j) + number (pix (i + 1) j)) <= rnd (number (pix i' j') + number (pix (i' + 1) j'))) by (apply rnd_le; lra). lra. }
  apply Rle_min_compat_l. apply Rle_max_compat_l. apply rnd_le. apply Rmult_le_compat_r; [left; apply Rinv_0_lt_compat; lra|exact M].
Qed.
(** A pixel that is not black gives a positive gray. *)
Lemma gray_pos i j : seen = true -> (i < r)%nat -> (j < c)%nat -> 0 <= number (pix i j) -> ((i + 1 < r)%nat -> 0 <= number (pix (i + 1) j)) -> / 2 ^ 104 <= number (pix i j) \/ ((i + 1 < r)%nat /\ / 2 ^ 104 <= number (pix (i + 1) j)) -> 0 < number (gray i j).
Proof.
  intros Sn Hi Hj P1 P2 H. destruct (gray_is i j Hi Hj) as (_ & -> & _). destruct (divisor_is i) as (_ & _ & Bd).
  assert (E105 : / 2 ^ 105 = / 2 ^ 104 / 2) by (rewrite (pow_next 104), Rinv_mult; unfold Rdiv; ring). assert (P0 : 0 < / 2 ^ 105) by (apply Rinv_0_lt_compat; apply pow_lt; lra).
  assert (M : / 2 ^ 105 <= mix i j).
  { unfold mix. rewrite Sn. destruct (Nat.ltb_spec (i + 1) r) as [Q|Q]; [|destruct H as [H|[H _]]; [lra|lia]]. specialize (P2 Q). apply rnd_ge_F; [apply F32_small_power; lia|]. assert (/ 2 ^ 104 <= rnd (number (pix i j) + number (pix (i + 1) j))); [|lra]. apply rnd_ge_F; [apply F32_small_power; lia|]. destruct H as [H|[_ H]]; lra. }
  assert (G : / 2 ^ 126 <= rnd (mix i j / number (divisor i))). { apply rnd_ge_F; [apply F32_small_power; lia|]. replace (2 ^ 126) with (2 ^ 105 * 2097152) by (replace 2097152 with (2 ^ 21) by lra; rewrite <- pow_add; reflexivity). rewrite Rinv_mult. apply Rmult_le_compat; [lra|lra|exact M|apply Rinv_le; lra]. }
  assert (P1' : 0 < / 2 ^ 126) by (apply Rinv_0_lt_compat; apply pow_lt; lra). rewrite Rmax_right by lra. apply Rmin_glb_lt; lra.
Qed.
Lemma gray_black i j : (i < r)%nat -> (j < c)%nat -> mix i j <= 0 -> number (gray i j) = 0.
Proof.
  intros Hi Hj M. destruct (gray_is i j Hi Hj) as (_ & -> & _). destruct (divisor_is i) as (_ & _ & Bd). assert (Q : rnd (mix i j / number (divisor i)) <= 0). { rewrite <- rnd_0. apply rnd_le. unfold Rdiv. rewrite <- (Rmult_0_l (/ number (divisor i))). apply Rmult_le_compat_r; [left; apply Rinv_0_lt_compat; lra|exact M]. }
  rewrite Rmax_left by exact Q. apply Rmin_right. lra.
Qed.
End Picture.
