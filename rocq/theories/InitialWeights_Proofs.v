From Coq Require Import Reals ZArith NArith List Bool Lia Lra.
From Flocq Require Import Core Relative.
From Verif Require Import InitialWeights_Model.
Import ListNotations.
Local Open Scope R_scope.

Notation f32 := (generic_format radix2 (FLT_exp (-149) 24)).
Notation f64 := (generic_format radix2 (FLT_exp (-1074) 53)).
Global Instance v32 : Valid_exp (FLT_exp (-149) 24). Proof. apply FLT_exp_valid. reflexivity. Qed.
Global Instance v64 : Valid_exp (FLT_exp (-1074) 53). Proof. apply FLT_exp_valid. reflexivity. Qed.

Lemma f32_f64 : forall x, f32 x -> f64 x.
Proof. intros x H. apply generic_inclusion_mag with (2 := H). intros _. unfold FLT_exp. lia. Qed.
Lemma float_round_format : forall x, f32 (float_round x).
Proof. intros. apply generic_format_round; [exact v32|apply valid_rnd_N]. Qed.
Lemma float_round_id : forall x, f32 x -> float_round x = x.
Proof. intros. apply round_generic; [apply valid_rnd_N|assumption]. Qed.
Lemma float_round_between : forall a b x, f32 a -> f32 b -> a <= x <= b -> a <= float_round x <= b.
Proof. intros a b x Ha Hb [H1 H2]. split; [apply round_ge_generic|apply round_le_generic]; auto using v32 with typeclass_instances. Qed.
Lemma double_round_between : forall a b x, f64 a -> f64 b -> a <= x <= b -> a <= double_round x <= b.
Proof. intros a b x Ha Hb [H1 H2]. split; [apply round_ge_generic|apply round_le_generic]; auto using v64 with typeclass_instances. Qed.
Lemma double_round_nonneg : forall x, 0 <= x -> 0 <= double_round x.
Proof. intros x H. apply round_ge_generic; [exact v64|apply valid_rnd_N|apply generic_format_0|exact H]. Qed.

Lemma real_nonneg : forall n, 0 <= real n.
Proof. intros. unfold real. apply IZR_le. lia. Qed.

Lemma fmod_range : forall x y, 0 < y -> 0 <= x -> exists m, fmod x y = Some m /\ 0 <= m < y.
Proof.
  intros x y Hy Hx. unfold fmod. destruct (Req_EM_T y 0) as [E|_]; [lra|]. eexists. split; [reflexivity|].
  assert (Hq : 0 <= x / y) by (apply Rmult_le_pos; [lra|left; now apply Rinv_0_lt_compat]).
  rewrite Ztrunc_floor by exact Hq. pose proof (Zfloor_lb (x / y)) as L. pose proof (Zfloor_ub (x / y)) as U.
  assert (E : x = y * (x / y)) by (field; lra). set (q := x / y) in *. set (k := IZR (Zfloor q)) in *. rewrite E. clearbody q k. nra.
Qed.

Lemma pi_nonneg : 0 <= pi double_round.
Proof. apply double_round_nonneg. lra. Qed.
Lemma e_positive : 0 < double_round (271828 / 100000).
Proof.
  apply Rlt_le_trans with 1; [lra|]. apply round_ge_generic; [exact v64|apply valid_rnd_N| |lra].
  change 1 with (bpow radix2 0). apply generic_format_bpow. unfold FLT_exp. lia.
Qed.

Lemma getValue_between : forall t row column channel, 0 < range t -> f32 (min_value t) -> f32 (max_value t) ->
  range t <= max_value t - min_value t -> 0 <= range_const t -> 0 <= seed_const t -> 0 <= channel_size t ->
  exists w, getValue float_round double_round t row column channel = Some w /\ min_value t <= w <= max_value t.
Proof.
  intros t row column channel Hr Hmin Hmax Hle Hc Hs Hz. unfold getValue. cbv zeta.
  match goal with |- context [fmod ?o _] => set (offset := o) end.
  assert (Ho : 0 <= offset).
  { subst offset. pose proof pi_nonneg.
    repeat first [apply double_round_nonneg | apply Rplus_le_le_0_compat | apply Rmult_le_pos]; auto using double_round_nonneg, real_nonneg; lra. }
  destruct (fmod_range offset (range t) Hr Ho) as (m & -> & Hm). cbn [option_map]. eexists. split; [reflexivity|].
  apply float_round_between; [exact Hmin|exact Hmax|]. apply double_round_between; [now apply f32_f64..|]. lra.
Qed.

(** * Xavier *)
Lemma f32_opp : forall x, f32 x -> f32 (- x).
Proof. intros. now apply generic_format_opp. Qed.
Lemma f32_double : forall x, f32 x -> f32 (2 * x).
Proof.
  intros x H. apply FLT_format_generic in H; [|reflexivity]. destruct H as [[m e] E Hm He]. apply generic_format_FLT.
  exists (Float radix2 m (e + 1)); cbn [Fnum Fexp] in *; [|exact Hm|lia].
  rewrite E. unfold F2R. cbn [Fnum Fexp]. rewrite bpow_plus. change (bpow radix2 1) with 2. lra.
Qed.

Lemma float_round_lower : forall x e, (-149 <= e)%Z -> bpow radix2 e <= x -> bpow radix2 e <= float_round x.
Proof.
  intros x e He H. apply round_ge_generic; [exact v32|apply valid_rnd_N| |exact H]. apply generic_format_bpow. unfold FLT_exp. lia.
Qed.
Lemma float_round_rel : forall x, bpow radix2 (-126) <= x -> x * (1 - / 16777216) <= float_round x <= x * (1 + / 16777216).
Proof.
  intros x H. assert (P : 0 < x) by (pose proof (bpow_gt_0 radix2 (-126)); lra).
  assert (G : Rabs (float_round x - x) <= / 2 * bpow radix2 (- (24) + 1) * Rabs x).
  { apply relative_error_N_FLT; [reflexivity|]. rewrite Rabs_right by lra. exact H. }
  rewrite (Rabs_right x) in G by lra.
  replace (/ 2 * bpow radix2 (- (24) + 1)) with (/ 16777216) in G by (cbn [bpow Z.add Z.opp Z.pos_sub Pos.pred_double radix2 radix_val Z.pow_pos Pos.iter Z.mul Pos.mul]; lra).
  apply Rabs_le_inv in G. lra.
Qed.

Section Xavier.
Context (rows cols : N).
Hypothesis some : (1 <= rows + cols < 2 ^ 64)%N.
Let n : R := real (rows + cols).
Let v : R := variance float_round rows cols.

Lemma n_bounds : 1 <= n <= bpow radix2 64.
Proof.
  unfold n, real. split; [apply IZR_le; lia|]. replace (bpow radix2 64) with (IZR (2 ^ 64)) by reflexivity. apply IZR_le. lia.
Qed.
Lemma variance_facts : 0 < v /\ f32 v /\ v * v <= 2 / n * (26 / 100).
Proof.
  pose proof n_bounds as [N1 N2]. set (B := bpow radix2 64) in *.
  assert (B0 : 1 < B) by (subst B; change 1 with (bpow radix2 0); apply bpow_lt; lia).
  assert (Hmin : forall e k, (e <= k)%Z -> bpow radix2 e <= bpow radix2 k) by (intros; now apply bpow_le).
  set (a := float_round n).
  assert (Ha : n * (1 - / 16777216) <= a <= n * (1 + / 16777216)).
  { apply float_round_rel. apply Rle_trans with (bpow radix2 0); [apply bpow_le; lia|exact N1]. }
  assert (Ha1 : 1 <= a) by (apply (float_round_lower n 0); [lia|exact N1]).
  assert (Ha2 : a <= 2 * B) by (clear - Ha N2 N1; clearbody n B a; nra).
  set (b := float_round (2 / a)).
  assert (HB : bpow radix2 (-64) * B = 1) by (subst B; rewrite <- bpow_plus; reflexivity).
  assert (H2a : bpow radix2 (-64) <= 2 / a).
  { apply Rmult_le_reg_r with a; [lra|]. unfold Rdiv. rewrite Rmult_assoc, Rinv_l, Rmult_1_r by lra.
    pose proof (bpow_gt_0 radix2 (-64)). apply Rle_trans with (bpow radix2 (-64) * (2 * B)); [apply Rmult_le_compat_l; lra|]. nra. }
  assert (Hb : 2 / a * (1 - / 16777216) <= b <= 2 / a * (1 + / 16777216)).
  { apply float_round_rel. eapply Rle_trans; [|exact H2a]. apply bpow_le; lia. }
  assert (Hb1 : bpow radix2 (-64) <= b) by (apply float_round_lower; [lia|exact H2a]).
  set (c := sqrt b).
  assert (Hc : bpow radix2 (-32) <= c).
  { subst c. rewrite <- (sqrt_Rsqr (bpow radix2 (-32))) by apply bpow_ge_0. apply sqrt_le_1_alt. unfold Rsqr. rewrite <- bpow_plus. exact Hb1. }
  assert (Hcc : c * c = b). { apply sqrt_sqrt. pose proof (bpow_gt_0 radix2 (-64)). lra. }
  set (d := float_round c).
  assert (Hd : c * (1 - / 16777216) <= d <= c * (1 + / 16777216)).
  { apply float_round_rel. eapply Rle_trans; [|exact Hc]. apply bpow_le; lia. }
  assert (Hd1 : bpow radix2 (-32) <= d) by (apply float_round_lower; [lia|exact Hc]).
  assert (Hd2 : bpow radix2 (-33) <= d / 2). { replace (bpow radix2 (-33)) with (bpow radix2 (-32) / 2); [lra|]. change (-32)%Z with (-33 + 1)%Z. rewrite bpow_plus. change (bpow radix2 1) with 2. lra. }
  assert (Hv : d / 2 * (1 - / 16777216) <= v <= d / 2 * (1 + / 16777216)).
  { apply float_round_rel. eapply Rle_trans; [|exact Hd2]. apply bpow_le; lia. }
  assert (Hv1 : bpow radix2 (-33) <= v) by (apply float_round_lower; [lia|exact Hd2]).
  split; [pose proof (bpow_gt_0 radix2 (-33)); lra|]. split; [apply float_round_format|].
  pose proof (bpow_gt_0 radix2 (-33)) as P33. pose proof (bpow_gt_0 radix2 (-32)) as P32.
  assert (S1 : v <= c * (5001 / 10000)) by lra.
  assert (S2 : v * v <= b * (2502 / 10000)). { apply Rle_trans with ((c * (5001 / 10000)) * (c * (5001 / 10000))); [apply Rmult_le_compat; lra|]. 
    replace (c * (5001 / 10000) * (c * (5001 / 10000))) with (c * c * (5001 / 10000 * (5001 / 10000))) by ring. rewrite Hcc.
    apply Rmult_le_compat_l; [pose proof (bpow_gt_0 radix2 (-64)); lra|lra]. }
  assert (S3 : 2 / a <= 2 / n * (10001 / 10000)).
  { apply Rmult_le_reg_r with a; [lra|]. unfold Rdiv at 1. rewrite Rmult_assoc, Rinv_l, Rmult_1_r by lra.
    apply Rle_trans with (2 / n * (10001 / 10000) * (n * (1 - / 16777216))).
    - replace (2 / n * (10001 / 10000) * (n * (1 - / 16777216))) with (2 * (10001 / 10000) * (1 - / 16777216)) by (field; lra). lra.
    - apply Rmult_le_compat_l; [|lra]. assert (0 < 2 / n) by (apply Rdiv_lt_0_compat; lra). lra. }
  assert (0 < 2 / n) by (apply Rdiv_lt_0_compat; lra). assert (0 < 2 / a) by (apply Rdiv_lt_0_compat; lra). lra.
Qed.

Lemma range_is : range (TensorFromXavier float_round double_round rows cols 1 0) = 2 * v.
Proof.
  destruct variance_facts as (P & F & _). unfold TensorFromXavier, with_bounds. cbn [range]. fold v.
  replace (v - - v) with (2 * v) by ring. rewrite float_round_id by now apply f32_double. apply Rabs_right. lra.
Qed.
End Xavier.

Lemma constants_nonneg : forall r c ch lo hi seed, let t := with_bounds float_round double_round r c ch lo hi seed in
  0 <= range_const t /\ 0 <= seed_const t /\ 0 <= channel_size t.
Proof.
  intros. subst t. unfold with_bounds. cbn [range_const seed_const channel_size].
  assert (H : 0 <= double_round (Rabs (float_round (hi - lo)) / double_round (271828 / 100000))).
  { apply double_round_nonneg, Rmult_le_pos; [apply Rabs_pos|]. left. apply Rinv_0_lt_compat, e_positive. }
  split; [exact H|]. split.
  - apply double_round_nonneg. unfold Rdiv. apply Rmult_le_pos.
    + apply double_round_nonneg, Rmult_le_pos; [apply double_round_nonneg, real_nonneg|exact H].
    + destruct pi_nonneg as [P|P]; [left; now apply Rinv_0_lt_compat|]. rewrite <- P, Rinv_0. lra.
  - apply double_round_nonneg, Rmult_le_pos; apply double_round_nonneg, real_nonneg.
Qed.

Lemma xavier_lemma : forall rows cols channels seed row column channel, (1 <= rows + cols < 2 ^ 64)%N ->
  exists w, getValue float_round double_round (TensorFromXavier float_round double_round rows cols channels seed) row column channel = Some w /\
    - variance float_round rows cols <= w <= variance float_round rows cols.
Proof.
  intros rows cols channels seed row column channel H. destruct (variance_facts rows cols H) as (P & F & _).
  pose proof (range_is rows cols H) as E.
  destruct (constants_nonneg rows cols channels (- variance float_round rows cols) (variance float_round rows cols) seed) as (C1 & C2 & C3).
  set (t := TensorFromXavier float_round double_round rows cols channels seed) in *.
  assert (Er : range t = 2 * variance float_round rows cols) by exact E.
  apply (getValue_between t); [rewrite Er; lra|apply f32_opp; exact F|exact F|rewrite Er; unfold t, TensorFromXavier, with_bounds; cbn [min_value max_value]; lra|exact C1|exact C2|exact C3].
Qed.

Lemma random_lemma : forall rows cols channels lo hi seed row column channel, f32 lo -> f32 hi -> lo < hi -> f32 (hi - lo) ->
  exists w, getValue float_round double_round (TensorFromRandom float_round double_round rows cols channels lo hi seed) row column channel = Some w /\ lo <= w <= hi.
Proof.
  intros rows cols channels lo hi seed row column channel Fl Fh H Fd.
  destruct (constants_nonneg rows cols channels lo hi seed) as (C1 & C2 & C3).
  unfold TensorFromRandom. rewrite Rmin_left, Rmax_left by lra.
  set (t := with_bounds float_round double_round rows cols channels lo hi seed) in *.
  assert (Er : range t = hi - lo). { unfold t, with_bounds. cbn [range]. rewrite float_round_id by exact Fd. apply Rabs_right. lra. }
  apply (getValue_between t); [rewrite Er; lra|exact Fl|exact Fh|rewrite Er; apply Rle_refl|exact C1|exact C2|exact C3].
Qed.

Lemma equal_bounds_lemma : forall rows cols channels x seed row column channel,
  getValue float_round double_round (TensorFromRandom float_round double_round rows cols channels x x seed) row column channel = None.
Proof.
  intros. unfold getValue. cbv zeta. unfold fmod, TensorFromRandom, with_bounds. cbn [range].
  rewrite Rmin_left, Rmax_left by lra.
  destruct (Req_EM_T (Rabs (float_round (x - x))) 0) as [_|N]; [reflexivity|]. exfalso. apply N. replace (x - x) with 0 by ring.
  unfold float_round. rewrite round_0 by apply valid_rnd_N. apply Rabs_R0.
Qed.

(** * In exact arithmetic *)
Notation exact_ := (fun x : R => x).
Lemma fmod_equal : forall x y p m, 0 < p -> fmod x p = Some m -> fmod y p = Some m -> exists k, x - y = p * IZR k.
Proof.
  intros x y p m Hp. unfold fmod. destruct (Req_EM_T p 0) as [E|_]; [lra|]. intros E1 E2. injection E1 as E1. injection E2 as E2.
  exists (Ztrunc (x / p) - Ztrunc (y / p))%Z. rewrite minus_IZR. lra.
Qed.
Lemma fmod_some : forall x p, 0 < p -> exists m, fmod x p = Some m.
Proof. intros x p H. unfold fmod. destruct (Req_EM_T p 0); [lra|]. eauto. Qed.

Lemma real_sub : forall a b, real a - real b = IZR (Z.of_N a - Z.of_N b).
Proof. intros. unfold real. now rewrite minus_IZR. Qed.
Lemma real_add : forall a b, real (a + b) = real a + real b.
Proof. intros. unfold real. rewrite N2Z.inj_add, plus_IZR. reflexivity. Qed.

Lemma exact_pi : pi exact_ = 314159265358979323846 / 100000000000000000000.
Proof. reflexivity. Qed.

Lemma variance_exact_pos : forall rows cols, (1 <= rows + cols)%N -> 0 < variance exact_ rows cols.
Proof.
  intros rows cols H. unfold variance. apply Rdiv_lt_0_compat; [|lra]. apply sqrt_lt_R0. apply Rdiv_lt_0_compat; [lra|].
  unfold real. apply IZR_lt. lia.
Qed.

(** The value, from the offset. *)
Lemma exact_value : forall rows cols channels seed row column channel,
  let p := 2 * variance exact_ rows cols in let e := 271828 / 100000 in
  (1 <= rows + cols)%N ->
  exists m, fmod ((real channel * (real rows * real cols) + real row * real cols + (real column + 1) * (p / e)
                  + real (seed mod 12345689 + 1) * (p / e) / pi exact_) * pi exact_) p = Some m /\
    getValue exact_ exact_ (TensorFromXavier exact_ exact_ rows cols channels seed) row column channel = Some (variance exact_ rows cols - m).
Proof.
  intros rows cols channels seed row column channel p e H. pose proof (variance_exact_pos rows cols H) as P.
  destruct (fmod_some ((real channel * (real rows * real cols) + real row * real cols + (real column + 1) * (p / e)
                  + real (seed mod 12345689 + 1) * (p / e) / pi exact_) * pi exact_) p) as [m E]; [unfold p; lra|].
  exists m. split; [exact E|]. unfold getValue, TensorFromXavier, with_bounds. cbv beta zeta.
  cbn [range channel_size InitialWeights_Model.cols range_const seed_const max_value]. cbv beta.
  replace (Rabs (variance exact_ rows cols - - variance exact_ rows cols)) with p by (rewrite Rabs_right; unfold p; lra).
  fold e. rewrite E. reflexivity.
Qed.

Lemma columns_lemma : forall rows cols channels seed row column column' channel, (1 <= rows + cols)%N ->
  (column < 135914000000000000000)%N -> (column' < 135914000000000000000)%N -> column <> column' ->
  let t := TensorFromXavier exact_ exact_ rows cols channels seed in
  getValue exact_ exact_ t row column channel <> getValue exact_ exact_ t row column' channel.
Proof.
  intros rows cols channels seed row column column' channel H B1 B2 Hne t E. subst t.
  destruct (exact_value rows cols channels seed row column channel H) as (m & Em & Ev).
  destruct (exact_value rows cols channels seed row column' channel H) as (m' & Em' & Ev').
  rewrite Ev, Ev' in E. injection E as E. assert (m' = m) by lra. subst m'.
  pose proof (variance_exact_pos rows cols H) as P. set (v := variance exact_ rows cols) in *.
  destruct (fmod_equal _ _ (2 * v) m ltac:(lra) Em Em') as [k Hk]. clear - Hk P B1 B2 Hne. rewrite exact_pi in Hk.
  set (s := real (seed mod 12345689 + 1)) in Hk. set (base := real channel * (real rows * real cols) + real row * real cols) in Hk.
  assert (G : (real column - real column') * 314159265358979323846 = IZR k * 271828000000000000000).
  { apply Rmult_eq_reg_l with (2 * v); [|lra]. 
    replace (2 * v * (IZR k * 271828000000000000000)) with (2 * v * IZR k * 271828000000000000000) by ring. rewrite <- Hk. field. }
  rewrite real_sub in G. rewrite <- !mult_IZR in G. apply eq_IZR in G.
  assert (D : (135914000000000000000 | Z.of_N column - Z.of_N column')%Z).
  { apply (Z.gauss _ 157079632679489661923); [exists k; lia|]. vm_compute. reflexivity. }
  destruct D as [q D]. assert (q = 0 \/ q <> 0)%Z as [->|] by lia; lia.
Qed.

Lemma seeds_lemma : forall rows cols channels seed seed' row column channel, (1 <= rows + cols)%N ->
  (seed < 12345689)%N -> (seed' < 12345689)%N -> ~ (67957 | Z.of_N seed - Z.of_N seed')%Z ->
  getValue exact_ exact_ (TensorFromXavier exact_ exact_ rows cols channels seed) row column channel <>
  getValue exact_ exact_ (TensorFromXavier exact_ exact_ rows cols channels seed') row column channel.
Proof.
  intros rows cols channels seed seed' row column channel H B1 B2 Hne E.
  destruct (exact_value rows cols channels seed row column channel H) as (m & Em & Ev).
  destruct (exact_value rows cols channels seed' row column channel H) as (m' & Em' & Ev').
  rewrite Ev, Ev' in E. injection E as E. assert (m' = m) by lra. subst m'.
  pose proof (variance_exact_pos rows cols H) as P. set (v := variance exact_ rows cols) in *.
  destruct (fmod_equal _ _ (2 * v) m ltac:(lra) Em Em') as [k Hk]. clear - Hk P B1 B2 Hne. rewrite exact_pi in Hk.
  rewrite !N.mod_small in Hk by assumption. rewrite !real_add in Hk.
  set (base := real channel * (real rows * real cols) + real row * real cols) in Hk.
  assert (G : (real seed - real seed') * 100000 = IZR k * 271828).
  { apply Rmult_eq_reg_l with (2 * v); [|lra].
    replace (2 * v * (IZR k * 271828)) with (2 * v * IZR k * 271828) by ring. rewrite <- Hk. field. }
  rewrite real_sub in G. rewrite <- !mult_IZR in G. apply eq_IZR in G.
  apply Hne. apply (Z.gauss _ 25000); [exists k; lia|]. vm_compute. reflexivity.
Qed.

(** * Networks *)
Lemma ids_momentum : forall r32 r64 ls next_id i l, nth_error ls i = Some l ->
  exists id, nth_error (network_weights r32 r64 WithMomentum next_id ls) i = Some (layer_weights r32 r64 l id) /\
    (next_id + N.of_nat i <= id <= next_id + 2 * N.of_nat i)%N.
Proof.
  intros r32 r64 ls. induction ls as [|l0 ls IH]; intros next_id i l H; [destruct i; discriminate|].
  destruct i as [|i].
  - cbn in H. injection H as ->. exists next_id. split; [reflexivity|lia].
  - cbn [nth_error] in H. cbn [network_weights register]. cbv beta iota. cbn [nth_error].
    match goal with |- context [network_weights _ _ _ ?n ls] => destruct (IH n _ _ H) as (id & E & B) end.
    exists id. split; [exact E|]. destruct (has_bias l0); cbn [snd] in B; lia.
Qed.

Lemma ids_apart : forall r32 r64 ls next_id i j l l', (i < j)%nat -> nth_error ls i = Some l -> nth_error ls j = Some l' ->
  exists id id', nth_error (network_weights r32 r64 WithMomentum next_id ls) i = Some (layer_weights r32 r64 l id) /\
    nth_error (network_weights r32 r64 WithMomentum next_id ls) j = Some (layer_weights r32 r64 l' id') /\
    (id < id')%N /\ (next_id <= id)%N /\ (id' <= next_id + 2 * N.of_nat j)%N.
Proof.
  intros r32 r64 ls. induction ls as [|l0 ls IH]; intros next_id i j l l' Hij Hi Hj; [destruct i; discriminate|].
  destruct j as [|j]; [lia|]. destruct i as [|i].
  - cbn in Hi. injection Hi as ->. cbn [nth_error] in Hj. cbn [network_weights register]. cbv beta iota. cbn [nth_error].
    exists next_id.
    match goal with |- context [network_weights _ _ _ ?n ls] => destruct (ids_momentum r32 r64 ls n _ _ Hj) as (id' & E' & B') end.
    exists id'. split; [reflexivity|]. split; [exact E'|]. destruct (has_bias l); cbn [snd] in B'; lia.
  - cbn [nth_error] in Hi, Hj. cbn [network_weights register]. cbv beta iota. cbn [nth_error].
    match goal with |- context [network_weights _ _ _ ?n ls] => destruct (IH n i j l l' ltac:(lia) Hi Hj) as (id & id' & E & E' & B) end.
    exists id, id'. split; [exact E|]. split; [exact E'|]. destruct (has_bias l0); cbn [snd] in B; lia.
Qed.

Lemma ids_sgd : forall r32 r64 ls next_id i l, nth_error ls i = Some l ->
  nth_error (network_weights r32 r64 Sgd next_id ls) i = Some (layer_weights r32 r64 l 0).
Proof.
  intros r32 r64 ls. induction ls as [|l0 ls IH]; intros next_id i l H; [destruct i; discriminate|].
  destruct i as [|i]; [cbn in H; injection H as ->; reflexivity|]. cbn [nth_error] in H. cbn [network_weights register]. cbv beta iota. cbn [nth_error].
  destruct (has_bias l0); cbn [snd]; now apply IH.
Qed.
