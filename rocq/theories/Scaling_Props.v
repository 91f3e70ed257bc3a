(** C32, C33, C34: number scaling. *)
From Coq Require Import Reals List Bool Lra Lia.
From Flocq Require Import Core Plus_error IEEE754.BinarySingleNaN IEEE754.Binary IEEE754.Bits.
From Verif Require Import F32_Model F32_Proofs Scaling_Model Scaling_Spec Scaling_Proofs.
Import ListNotations.
Open Scope R_scope.

(** C32: what is shown to the user is the value that was put in, and a value scaled for one data
    set and re-scaled for another is what the other data set would have stored (exact arithmetic). *)
Theorem scaling_undone : forall m : scaling exact, forall v : R,
  (is_standardized exact m = true -> (standard_deviation exact m : R) <> 0) ->
  (is_normalized exact m = true -> (min_value exact m : R) <> max_value exact m) ->
  unscale exact m (scale exact m v) = v /\ scale exact m (unscale exact m v) = v.
Proof.
  intros m v H1 H2. unfold unscale, scale, standardise, unstandardise, normalise, denormalise. cbn [exact a_add a_sub a_mul a_div num] in *.
  destruct (is_standardized exact m), (is_normalized exact m); try specialize (H1 eq_refl); try specialize (H2 eq_refl); split; field; lra.
Qed.
Print Assumptions scaling_undone.

Theorem rescaling_is_scaling : forall m m' : scaling exact, forall v : R,
  (is_standardized exact m = true -> (standard_deviation exact m : R) <> 0) ->
  (is_normalized exact m = true -> (min_value exact m : R) <> max_value exact m) ->
  rescale exact m m' (scale exact m v) = scale exact m' v.
Proof.
  intros m m' v H1 H2. unfold rescale. destruct (scaling_undone m v H1 H2) as [E _]. unfold unscale in E. rewrite E. reflexivity.
Qed.
Print Assumptions rescaling_is_scaling.

(** Finding: a column whose values are all the same is stored as NaN, whatever the value. *)
Theorem constant_column_is_nan : forall x : binary32, finite x = true ->
  is_nan 24 128 (normalise float32 x x x) = true.
Proof.
  intros x Hx. unfold normalise. cbn [float32 a_sub a_div].
  assert (E : exists s, fsub x x = B754_zero 24 128 s).
  { destruct (fsub_correct x x Hx Hx) as [V F].
    { replace (val x - val x) with 0 by ring. rewrite rnd_0, Rabs_R0. apply bpow_gt_0. }
    replace (val x - val x) with 0 in V by ring. rewrite rnd_0 in V. 
    destruct (fsub x x) as [s|s|s pl e|s m e b]; try discriminate F; [now exists s|]. exfalso.
    cbn in V. unfold F2R in V. cbn in V. apply Rmult_integral in V as [V|V]; [destruct s; cbn in V; apply eq_IZR in V; discriminate|].
    pose proof (bpow_gt_0 radix2 e). lra. }
  destruct E as [s ->]. destruct s; reflexivity.
Qed.
Print Assumptions constant_column_is_nan.

(** C33: the streamed statistics of a column are the statistics of all its values, however they
    are grouped into tensors (exact arithmetic). *)
Theorem streamed_statistics : forall tensors : list (list R),
  concat tensors <> [] -> (forall x, In x (concat tensors) -> Rabs x <= dbl_max) ->
  mean_result (column_stats tensors) = average (concat tensors) /\
  s_deviation (column_stats tensors) = sqrt (variance (concat tensors)) /\
  is_minimum (concat tensors) (s_min (column_stats tensors)) /\
  is_maximum (concat tensors) (s_max (column_stats tensors)).
Proof.
  intros ts Hne Hb. destruct (good_column ts) as (Hn & Hm & _ & HM & Hi & Ha). set (l := concat ts) in *.
  assert (Hl : 0 < INR (length l)) by (apply lt_0_INR; destruct l; [easy|cbn; lia]).
  assert (E : mean_result (column_stats ts) = average l). { unfold average. rewrite <- Hm. field. lra. }
  split; [exact E|]. split; [|split].
  - rewrite good_deviation by (intros ->; now apply Hne). rewrite HM, Hn, E. reflexivity.
  - rewrite Hi. apply fold_min; [exact Hne|]. intros x Hx. specialize (Hb x Hx). apply Rabs_le_inv in Hb. lra.
  - rewrite Ha. apply fold_max; [exact Hne|]. intros x Hx. specialize (Hb x Hx). apply Rabs_le_inv in Hb. lra.
Qed.
Print Assumptions streamed_statistics.

(** Finding: the standardising view that computes its own mean does not compute the mean. *)
Theorem view_mean_refuted : exists l, l <> [] /\ view_mean l <> average l.
Proof. exists [1; 1]. split; [discriminate|]. unfold view_mean, average, sum. cbn. lra. Qed.
Print Assumptions view_mean_refuted.

(** C34, where it holds: a column that is not standardised (deviation at most 1) and not constant
    is stored in [0,1]; the smallest value as 0 and the largest as 1. *)
Theorem normalised_in_unit_interval_partial : forall tensors : list (list R),
  concat tensors <> [] -> (forall x, In x (concat tensors) -> Rabs x <= dbl_max) ->
  sqrt (variance (concat tensors)) <= 1 -> (exists a b, In a (concat tensors) /\ In b (concat tensors) /\ a <> b) ->
  (forall x, In x (concat tensors) -> 0 <= scale exact (column_scaling tensors) x <= 1) /\
  (exists x, In x (concat tensors) /\ scale exact (column_scaling tensors) x = 0) /\
  (exists x, In x (concat tensors) /\ scale exact (column_scaling tensors) x = 1).
Proof.
  intros ts Hne Hb Hs (a & b & Ha & Hb' & Hab). destruct (streamed_statistics ts Hne Hb) as (_ & Hd & [Hi1 Hi2] & [Hm1 Hm2]).
  assert (E : forall x, scale exact (column_scaling ts) x = (x - s_min (column_stats ts)) / (s_max (column_stats ts) - s_min (column_stats ts))).
  { intro x. unfold scale, column_scaling. cbn [is_standardized is_normalized min_value max_value]. rewrite Hd.
    destruct (Rlt_dec 1 _); [lra|]. reflexivity. }
  assert (Hlt : s_min (column_stats ts) < s_max (column_stats ts)).
  { destruct (Rtotal_order a b) as [H|[H|H]]; [|easy|].
    - specialize (Hi2 a Ha). specialize (Hm2 b Hb'). lra.
    - specialize (Hi2 b Hb'). specialize (Hm2 a Ha). lra. }
  split; [|split].
  - intros x Hx. rewrite E. specialize (Hi2 x Hx). specialize (Hm2 x Hx). split.
    + apply Rmult_le_pos; [lra|]. left. apply Rinv_0_lt_compat. lra.
    + apply (Rmult_le_reg_r (s_max (column_stats ts) - s_min (column_stats ts))); [lra|]. field_simplify; lra.
  - exists (s_min (column_stats ts)). split; [exact Hi1|]. rewrite E. change (num exact) with R. field. lra.
  - exists (s_max (column_stats ts)). split; [exact Hm1|]. rewrite E. change (num exact) with R. field. lra.
Qed.
Print Assumptions normalised_in_unit_interval_partial.

(** The same in 32-bit floats: no rounding leaves [0,1]. *)
Theorem normalised_float_in_unit_interval : forall lo hi x : binary32,
  finite lo = true -> finite hi = true -> finite x = true ->
  val lo < val hi -> val lo <= val x <= val hi -> rnd (val hi - val lo) < max32 ->
  finite (normalise float32 lo hi x) = true /\ 0 <= val (normalise float32 lo hi x) <= 1.
Proof.
  intros lo hi x Fl Fh Fx Hlt Hx Hmax. unfold normalise. cbn [float32 a_sub a_div num].
  assert (Hmono : rnd (val x - val lo) <= rnd (val hi - val lo)) by (apply rnd_le; lra).
  assert (H0 : 0 <= rnd (val x - val lo)) by (apply rnd_ge0; lra).
  assert (H0' : 0 <= rnd (val hi - val lo)) by (apply rnd_ge0; lra).
  destruct (fsub_correct x lo Fx Fl) as [V1 F1]; [rewrite Rabs_pos_eq; lra|].
  destruct (fsub_correct hi lo Fh Fl) as [V2 F2]; [rewrite Rabs_pos_eq; lra|].
  assert (Hn : rnd (val hi - val lo) <> 0).
  { change (val hi - val lo) with (val hi + - val lo). apply round_plus_neq_0; try typeclasses eauto.
    - apply val_format.
    - apply generic_format_opp, val_format.
    - lra. }
  assert (Q : 0 <= rnd (val (fsub x lo) / val (fsub hi lo)) <= 1).
  { rewrite V1, V2. assert (0 < rnd (val hi - val lo)) by lra. split.
    - apply rnd_ge0. apply Rmult_le_pos; [exact H0|]. left. now apply Rinv_0_lt_compat.
    - apply rnd_le_F; [apply F32_1|]. apply (Rmult_le_reg_r (rnd (val hi - val lo))); [lra|]. field_simplify; lra. }
  destruct (fdiv_correct (fsub x lo) (fsub hi lo) F1) as [V3 F3].
  - rewrite V2. exact Hn.
  - rewrite Rabs_pos_eq by lra. apply Rle_lt_trans with 1; [lra|]. change 1 with (bpow radix2 0). apply bpow_lt. lia.
  - split; [exact F3|]. rewrite V3. exact Q.
Qed.
Print Assumptions normalised_float_in_unit_interval.

(** Finding: a standardised column is normalised with the range of the raw values, so its values
    leave [0,1]. *)
Theorem normalised_in_unit_interval_refuted : exists tensors : list (list R), exists x,
  In x (concat tensors) /\ (forall y, In y (concat tensors) -> Rabs y <= dbl_max) /\
  scale exact (column_scaling tensors) x < 0.
Proof.
  assert (B : 10 <= dbl_max) by (apply IZR_le; vm_compute; discriminate).
  assert (Hb : forall y, In y (concat [[0]; [10]]) -> Rabs y <= dbl_max).
  { intros y Hy. cbn in Hy. destruct Hy as [<-|[<-|[]]]; rewrite Rabs_pos_eq; lra. }
  exists [[0]; [10]], 0. split; [left; reflexivity|]. split; [exact Hb|].
  destruct (streamed_statistics [[0]; [10]] ltac:(cbn; discriminate) Hb) as (Hm & Hd & [Hi1 Hi2] & [Ha1 Ha2]).
  assert (A5 : average (concat [[0]; [10]]) = 5) by (unfold average, sum; cbn; lra).
  assert (V : variance (concat [[0]; [10]]) = 5 * 5) by (unfold variance; rewrite A5; unfold sum; cbn; lra).
  rewrite V, sqrt_square in Hd by lra. rewrite A5 in Hm.
  assert (Mi : s_min (column_stats [[0]; [10]]) = 0).
  { cbn [concat app In] in Hi1. destruct Hi1 as [E|[E|[]]]; [lra|]. specialize (Hi2 0 (or_introl eq_refl)). lra. }
  assert (Ma : s_max (column_stats [[0]; [10]]) = 10).
  { cbn [concat app In] in Ha1. destruct Ha1 as [E|[E|[]]]; [|lra]. specialize (Ha2 10 (or_intror (or_introl eq_refl))). lra. }
  unfold scale, column_scaling. cbn [is_standardized is_normalized min_value max_value mean standard_deviation].
  rewrite Hd, Hm, Mi, Ma. destruct (Rlt_dec 1 5); [|lra]. unfold normalise, standardise. cbn. lra.
Qed.
Print Assumptions normalised_in_unit_interval_refuted.

Example scaling_ex :
  let m : scaling exact := {| is_standardized := true; mean := 5 : num exact; standard_deviation := 5 : num exact; is_normalized := true; min_value := 0 : num exact; max_value := 10 : num exact |} in
  scale exact m 20 = 3 / 10 /\ unscale exact m (3 / 10) = 20.
Proof. unfold scale, unscale, standardise, unstandardise, normalise, denormalise. cbn. lra. Qed.
