(** C45: the reductions return the mathematically defined values. *)
From Coq Require Import List Arith Bool Lia Ring Reals Lra Sorted Permutation ZArith.
From Flocq Require Import Core IEEE754.BinarySingleNaN IEEE754.Binary IEEE754.Bits.
From Verif Require Import Outcome Tensor_Model Tensor_Spec F32_Model Scaling_Spec Scaling_Proofs Reduce_Model Reduce_Spec Reduce_Proofs.
Import ListNotations.
Local Open Scope nat_scope.

(** ** Sum and product: exact arithmetic in any commutative ring *)
Section Ring.
Context {A : Type} (o : ops A) (opp : A -> A).
Hypothesis R : ring_theory (zero o) (one o) (add o) (mul o) (sub o) opp eq.
Add Ring Aring : R.

Theorem sum_is_the_sum : forall (t : tensor A) n m K f, is_tensor t n m K f ->
  Reduce_Model.sum o t = Ok (Sum o K (fun k => Sum o n (fun r => Sum o m (fun c => f r c k)))).
Proof.
  intros t n m K f Ht. unfold Reduce_Model.sum. rewrite (scan_fold t n m K f (add o) _ _ Ht) by reflexivity. f_equal.
  assert (G : forall {B} (F : B -> nat -> list A) (h : nat -> A) N a (b : B), (forall k a, fold_left (add o) (F b k) a = add o a (h k)) ->
     fold_left (add o) (concat (map (F b) (seq 0 N))) a = add o a (Sum o N h)).
  { intros B F h N a b H. induction N as [|N IH]; [cbn; ring|].
    rewrite seq_S, map_app, concat_app, fold_left_app, IH. cbn [map concat Nat.add Sum]. rewrite app_nil_r, H. ring. }
  unfold elements.
  rewrite (G unit (fun _ k => concat (map (fun r => map (fun c => f r c k) (seq 0 m)) (seq 0 n))) (fun k => Sum o n (fun r => Sum o m (fun c => f r c k))) K (zero o) tt); [ring|].
  intros k a. rewrite (G unit (fun _ r => map (fun c => f r c k) (seq 0 m)) (fun r => Sum o m (fun c => f r c k)) n a tt); [reflexivity|].
  intros r a'. generalize m. intros N. induction N as [|N IH]; [cbn; ring|].
  rewrite seq_S, map_app, fold_left_app, IH. cbn [map fold_left Nat.add Sum]. ring.
Qed.

(** The product of the elements, in order. *)
Theorem product_is_the_product : forall (t : tensor A) n m K f, is_tensor t n m K f ->
  product o t = Ok (fold_right (mul o) (one o) (elements n m K f)).
Proof.
  intros t n m K f Ht. unfold product. rewrite (scan_fold t n m K f (mul o) _ _ Ht) by reflexivity. f_equal.
  generalize (elements n m K f). intros l.
  assert (H : forall a, fold_left (mul o) l a = mul o a (fold_right (mul o) (one o) l)).
  { induction l as [|x l IH]; intros a; cbn; [ring|]. rewrite IH. ring. }
  rewrite H. ring.
Qed.
End Ring.

(** ** Largest and smallest element: floats; NaN elements are skipped *)
Theorem max_is_the_largest : forall t n m K f, is_tensor t n m K f ->
  let l := filter number (elements n m K f) in
  exists v, max t = Ok v /\ (l <> [] -> largest l v) /\ (l = [] -> v = infinity_ true).
Proof.
  intros t n m K f Ht l. exists (fold_left std_max (elements n m K f) (infinity_ true)). split.
  - unfold max. now rewrite (scan_fold t n m K f std_max _ _ Ht).
  - split; [apply fold_max_largest|apply fold_nothing].
Qed.
Theorem min_is_the_smallest : forall t n m K f, is_tensor t n m K f ->
  let l := filter number (elements n m K f) in
  exists v, min t = Ok v /\ (l <> [] -> smallest l v) /\ (l = [] -> v = infinity_ false).
Proof.
  intros t n m K f Ht l. exists (fold_left std_min (elements n m K f) (infinity_ false)). split.
  - unfold min. now rewrite (scan_fold t n m K f std_min _ _ Ht).
  - split; [apply fold_min_smallest|apply fold_nothing].
Qed.
Theorem range_is_min_and_max : forall t n m K f, is_tensor t n m K f ->
  exists lo hi, range t = Ok (lo, hi) /\ min t = Ok lo /\ max t = Ok hi.
Proof.
  intros t n m K f Ht. do 2 eexists. split; [|split].
  2: { unfold min. now rewrite (scan_fold t n m K f std_min _ _ Ht). }
  2: { unfold max. now rewrite (scan_fold t n m K f std_max _ _ Ht). }
  unfold range. rewrite (scan_fold t n m K f (fun '(lo, hi) v => (std_min lo v, std_max hi v)) _ _ Ht) by (now intros [lo hi] v).
  f_equal. generalize (infinity_ false) (infinity_ true). induction (elements n m K f) as [|v l IH]; intros a b; [reflexivity|]. cbn [fold_left]. apply IH.
Qed.

(** ** Index of the extreme: the first one *)
Lemma inf_least x : number x = true -> (order (infinity_ true) <= order x)%R.
Proof. intros _. pose proof (order_bounds x). change (order (infinity_ true)) with (- bpow radix2 128)%R. lra. Qed.
Lemma inf_most x : number x = true -> (- order (infinity_ false) <= - order x)%R.
Proof. intros _. pose proof (order_bounds x). change (order (infinity_ false)) with (bpow radix2 128). lra. Qed.
Lemma fgt_nan x y : number x = false -> fgt x y = false.
Proof. intros H. unfold fgt. now rewrite compare_nan_l. Qed.
Lemma flt_nan x y : number x = false -> flt x y = false.
Proof. intros H. unfold flt. now rewrite compare_nan_l. Qed.
Lemma flt_key x y : number x = true -> number y = true -> (flt x y = true <-> (- order y < - order x)%R).
Proof. intros Hx Hy. rewrite (flt_order x y Hx Hy). split; lra. Qed.
Lemma feq_key x y : number x = true -> number y = true -> (feq x y = true <-> (- order x = - order y)%R).
Proof. intros Hx Hy. rewrite (feq_order x y Hx Hy). split; lra. Qed.

(** Row [row] of channel [channel] of [t] is made of the numbers [f 0], ..., [f (cols t - 1)]. *)
Definition row_of (t : tensor F) (channel row : nat) (f : nat -> F) : Prop :=
  forall i, i < cols t -> get t row i channel = Ok (f i) /\ number (f i) = true.

Theorem index_of_max_by_row : forall t channel row f, row_of t channel row f -> 0 < cols t ->
  exists k, maxIndexByRow t channel row = Ok k /\ k < cols t /\
    (forall i, i < cols t -> (order (f i) <= order (f k))%R) /\ (forall i, i < k -> (order (f i) < order (f k))%R).
Proof.
  intros t channel row f H Hc. apply (best_index_numbers fgt order (infinity_ true)); auto using fgt_order, fgt_nan, inf_least, feq_order.
Qed.
Theorem index_of_max_by_col : forall t channel col f,
  (forall i, i < rows t -> get t i col channel = Ok (f i) /\ number (f i) = true) -> 0 < rows t ->
  exists k, maxIndexByCol t channel col = Ok k /\ k < rows t /\
    (forall i, i < rows t -> (order (f i) <= order (f k))%R) /\ (forall i, i < k -> (order (f i) < order (f k))%R).
Proof.
  intros t channel col f H Hc. apply (best_index_numbers fgt order (infinity_ true)); auto using fgt_order, fgt_nan, inf_least, feq_order.
Qed.
Theorem index_of_min : forall t channel row f, row_of t channel row f -> 0 < cols t ->
  exists k, minIndex t channel row = Ok k /\ k < cols t /\
    (forall i, i < cols t -> (order (f k) <= order (f i))%R) /\ (forall i, i < k -> (order (f k) < order (f i))%R).
Proof.
  intros t channel row f H Hc.
  destruct (best_index_numbers flt (fun x => - order x)%R (infinity_ false) flt_key flt_nan feq_key eq_refl inf_most (cols t) (fun col => get t row col channel) f H Hc)
    as (k & E & Hk & H1 & H2). exists k. split; [exact E|]. split; [exact Hk|]. split; intros i Hi.
  - specialize (H1 i Hi). lra.
  - specialize (H2 i Hi). lra.
Qed.

(** All positions of the extreme, in ascending order. *)
Theorem indices_of_max : forall t channel row f, row_of t channel row f ->
  exists l, maxIndices t channel row = Ok l /\ StronglySorted lt l /\
    forall i, In i l <-> i < cols t /\ forall j, j < cols t -> (order (f j) <= order (f i))%R.
Proof.
  intros t channel row f H. apply (best_indices_spec fgt order (infinity_ true)); auto using fgt_order, fgt_nan, inf_least, feq_order.
Qed.
Theorem indices_of_min : forall t channel row f, row_of t channel row f ->
  exists l, minIndices t channel row = Ok l /\ StronglySorted lt l /\
    forall i, In i l <-> i < cols t /\ forall j, j < cols t -> (order (f i) <= order (f j))%R.
Proof.
  intros t channel row f H.
  destruct (best_indices_spec flt (fun x => - order x)%R (infinity_ false) flt_key flt_nan feq_key eq_refl inf_most (cols t) (fun col => get t row col channel) f H)
    as (l & E & Hs & Hi). exists l. split; [exact E|]. split; [exact Hs|]. intros i. rewrite Hi. split; intros [H1 H2]; split; auto; intros j Hj; specialize (H2 j Hj); lra.
Qed.

(** ** The k largest
    The result is sorted from the largest value down (equal values: from the last column down),
    holds the values of the columns it names, names min(k, columns) different columns, and no
    column left out has a larger value than a column named. *)
Theorem top_indices_are_the_largest : forall t number_of_results channel row f, row_of t channel row f ->
  exists l, topIndices t number_of_results channel row = Ok l /\
    length l = Nat.min number_of_results (cols t) /\
    NoDup (map fst l) /\
    (forall i v, In (i, v) l -> i < cols t /\ v = f i) /\
    StronglySorted (fun a b => (order (snd b) < order (snd a))%R \/ order (snd b) = order (snd a) /\ fst b < fst a) l /\
    (forall i j v, i < cols t -> ~ In i (map fst l) -> In (j, v) l -> (order (f i) <= order v)%R).
Proof.
  intros t k channel row f H. unfold topIndices. destruct (Nat.ltb_spec 0 k) as [Hk|Hk].
  2: { exists []. replace k with 0 by lia. cbn. repeat split; try constructor; intros; contradiction. }
  destruct (sorted_columns t row channel f H) as (s & E & Hs & Hp). rewrite E. cbn [obind].
  rewrite collect_firstn by exact Hk. cbn [length app]. rewrite Nat.sub_0_r.
  exists (firstn k (rev s)). split; [reflexivity|].
  assert (Hp' : Permutation (rev s) (map (fun i => (i, f i)) (seq 0 (cols t)))).
  { eapply perm_trans; [apply Permutation_sym, Permutation_rev|exact Hp]. }
  assert (Hin : forall i v, In (i, v) (rev s) <-> i < cols t /\ v = f i).
  { intros i v. split.
    - intros Hi. apply (Permutation_in _ Hp') in Hi. apply in_map_iff in Hi as (j & Ej & Hj). apply in_seq in Hj. injection Ej as -> <-. split; [lia|reflexivity].
    - intros [Hi ->]. apply (Permutation_in _ (Permutation_sym Hp')). apply in_map_iff. exists i. split; [reflexivity|]. apply in_seq. lia. }
  assert (Hl : length (rev s) = cols t). { rewrite (Permutation_length Hp'), map_length, seq_length. reflexivity. }
  assert (Hnd : NoDup (map fst (rev s))).
  { apply (Permutation_NoDup (Permutation_sym (Permutation_map fst Hp'))). rewrite map_map. cbn [fst]. rewrite map_id. apply seq_NoDup. }
  pose proof (sorted_rev _ _ Hs) as Hs'. rewrite <- (firstn_skipn k (rev s)) in Hs', Hnd.
  destruct (sorted_app _ _ _ Hs') as [Hs1 Hs2].
  split; [|split; [|split; [|split]]].
  - rewrite firstn_length, Hl. reflexivity.
  - rewrite map_app in Hnd. clear - Hnd. induction (map fst (firstn k (rev s))) as [|a l IH]; [constructor|]. cbn [app] in Hnd.
    inversion Hnd; subst. constructor; [|now apply IH]. intros G. apply H1. apply in_or_app. now left.
  - intros i v Hi. apply Hin. rewrite <- (firstn_skipn k (rev s)). apply in_or_app. now left.
  - exact Hs1.
  - intros i j v Hi Hni Hj.
    assert (Hs3 : In (i, f i) (rev s)) by now apply Hin.
    rewrite <- (firstn_skipn k (rev s)) in Hs3. apply in_app_or in Hs3 as [Hs3|Hs3].
    + elim Hni. apply in_map_iff. exists (i, f i). auto.
    + specialize (Hs2 _ _ Hj Hs3). unfold upto, after in Hs2. cbn [fst snd] in Hs2. lra.
Qed.

(** ** Means, in exact real arithmetic *)
Local Open Scope R_scope.
Theorem mean_is_the_average : forall (t : tensor R) n m K f, is_tensor t n m K f ->
  arithmeticMean t = Ok (average (elements n m K f)).
Proof.
  intros t n m K f Ht. unfold arithmeticMean.
  rewrite (scan_fold t n m K f (fun '(a, i) v => let i := i + 1 in (a + (v - a) / i, i)) _ _ Ht) by (now intros [a i] v).
  cbn [obind]. rewrite (running_mean (fun v => v)). cbn [fst]. now rewrite map_id.
Qed.
(** The population standard deviation and variance; one is the root of the other. *)
Theorem standard_deviation_is_the_root_of_the_variance : forall (t : tensor R) n m K f, is_tensor t n m K f ->
  standardDeviation t = Ok (sqrt (Scaling_Spec.variance (elements n m K f))).
Proof.
  intros t n m K f Ht. unfold standardDeviation. rewrite (mean_is_the_average t n m K f Ht). cbn [obind].
  set (av := average _).
  rewrite (scan_fold t n m K f (fun '(a, i) v => let i := i + 1 in (a + ((v - av) * (v - av) - a) / i, i)) _ _ Ht) by (now intros [a i] v).
  cbn [obind]. rewrite (running_mean (fun v => (v - av) * (v - av))). cbn [fst]. do 2 f_equal. unfold Scaling_Spec.variance, average.
  rewrite map_length. f_equal. f_equal. apply map_ext. intros x. subst av. unfold average. ring.
Qed.
Theorem variance_is_the_variance : forall (t : tensor R) n m K f, is_tensor t n m K f -> (0 < n * m * K)%nat ->
  variance t = Ok (Some (Scaling_Spec.variance (elements n m K f))).
Proof.
  intros t n m K f Ht Hpos. unfold variance. rewrite (mean_is_the_average t n m K f Ht). cbn [obind]. unfold variance_point.
  set (av := average _).
  rewrite (loop_flat t n m K f (fun s v => s + (v - av) * (v - av)) (fun s v => let diff := v - av in Ok (s + diff * diff)) _ Ht) by reflexivity.
  cbn [obind]. pose proof Ht as (H1 & H2 & H3 & _).
  assert (Es : size t = (n * m * K)%nat) by (unfold size; now rewrite H1, H2, H3). rewrite Es.
  destruct (Nat.eqb_spec (n * m * K) 0) as [E|E]; [lia|].
  rewrite fold_sum. do 2 f_equal. unfold Scaling_Spec.variance. rewrite elements_length. f_equal. rewrite Rplus_0_l. f_equal.
  apply map_ext. intros x. fold av. ring.
Qed.
(** Euclidean norm, when some element is not zero. *)
Theorem norm_is_the_root_of_the_squares : forall (t : tensor R) n m K f, is_tensor t n m K f ->
  (exists x, In x (elements n m K f) /\ x <> 0) ->
  euclidean_norm t = Ok (Some (sqrt (Scaling_Spec.sum (map (fun x => x ^ 2) (elements n m K f))))).
Proof.
  intros t n m K f Ht (x & Hx & Hnz). unfold euclidean_norm, max_abs.
  rewrite (scan_fold t n m K f (fun result v => if Rgt_bool (Rabs v) result then Rabs v else result) _ _ Ht) by reflexivity.
  cbn [obind]. destruct (max_abs_spec (elements n m K f) 0 ltac:(lra)) as (H1 & H2 & _). cbv zeta in H1, H2.
  set (M := fold_left _ _ _) in *. clearbody M.
  assert (HM : 0 < M). { specialize (H2 x Hx). pose proof (Rabs_pos_lt x Hnz). lra. }
  rewrite (scan_fold t n m K f (fun sum v => match sum with None => None | Some sum => if Req_EM_T M 0 then None else let val := v / M in Some (sum + val * val) end) _ _ Ht) by reflexivity.
  cbn [obind]. generalize (elements n m K f). intros l.
  assert (E : forall a, fold_left (fun sum v => match sum with None => None | Some sum => if Req_EM_T M 0 then None else let val := v / M in Some (sum + val * val) end) l (Some a)
     = Some (a + Scaling_Spec.sum (map (fun x => x ^ 2) l) / M ^ 2)).
  { induction l as [|v l IH]; intros a; cbn [fold_left map Scaling_Spec.sum fold_right].
    - f_equal. field. lra.
    - destruct (Req_EM_T M 0) as [G|G]; [lra|]. rewrite IH. f_equal. unfold Scaling_Spec.sum. field. lra. }
  rewrite E. do 2 f_equal. rewrite Rplus_0_l.
  assert (Hs : 0 <= Scaling_Spec.sum (map (fun x => x ^ 2) l)).
  { clear E. unfold Scaling_Spec.sum. induction l as [|v l IH]; cbn [map fold_right]; [lra|]. pose proof (pow2_ge_0 v). lra. }
  rewrite sqrt_div by (try lra; apply pow_lt; exact HM). rewrite sqrt_pow2 by lra. field. lra.
Qed.
(** The norm of a tensor of zeros is not 0 but NaN. *)
Theorem norm_of_zero_refuted : forall n m K, (0 < n * m * K)%nat ->
  exists t : tensor R, is_tensor t n m K (fun _ _ _ => 0) /\ euclidean_norm t = Ok None.
Proof.
  intros n m K Hpos. pose (t := {| rows := n; cols := m; chans := K; get := fun _ _ _ => Ok 0 |}).
  assert (Ht : is_tensor t n m K (fun _ _ _ => 0)) by (unfold is_tensor; repeat split). exists t. split; [exact Ht|].
  unfold euclidean_norm, max_abs.
  rewrite (scan_fold t n m K _ (fun result v => if Rgt_bool (Rabs v) result then Rabs v else result) _ _ Ht) by reflexivity.
  cbn [obind]. pose proof (elements_length n m K (fun _ _ _ => 0)) as L.
  assert (Hall : forall x, In x (elements n m K (fun _ _ _ => 0)) -> x = 0).
  { intros x Hx. apply elements_in in Hx as (r & c & k & _ & _ & _ & <-). reflexivity. }
  destruct (max_abs_spec (elements n m K (fun _ _ _ => 0)) 0 ltac:(lra)) as (_ & _ & H3). cbv zeta in H3.
  set (M := fold_left _ _ _) in *. clearbody M.
  assert (HM : M = 0). { destruct H3 as [H3|(x & Hx & H3)]; [exact H3|]. rewrite (Hall x Hx), Rabs_R0 in H3. exact H3. }
  rewrite (scan_fold t n m K _ (fun sum v => match sum with None => None | Some sum => if Req_EM_T M 0 then None else let val := v / M in Some (sum + val * val) end) _ _ Ht) by reflexivity.
  cbn [obind]. destruct (elements n m K (fun _ _ _ => 0)) as [|x l]; [cbn in L; lia|]. cbn [fold_left].
  destruct (Req_EM_T M 0) as [_|G]; [|easy]. clear. induction l as [|v l IH]; [reflexivity|]. cbn [fold_left]. exact IH.
Qed.
(** The geometric mean of positive numbers is the n-th root of their product. *)
Theorem geometric_mean_is_the_root_of_the_product : forall (t : tensor R) n m K f, is_tensor t n m K f -> (0 < n * m * K)%nat ->
  (forall x, In x (elements n m K f) -> 0 < x) ->
  exists g, geometricMean t = Ok (Some g) /\ 0 < g /\ g ^ (n * m * K) = times (elements n m K f).
Proof.
  intros t n m K f Ht Hpos Hall. unfold geometricMean.
  rewrite (scan_fold t n m K f (fun s v => match s with None => None | Some (sum, index) => if Rle_dec v 0 then None else Some (sum + ln v, index + 1) end) _ _ Ht) by reflexivity.
  cbn [obind]. pose proof (elements_length n m K f) as L. revert Hall L. generalize (elements n m K f). intros l Hall L.
  assert (E : forall a i, fold_left (fun s v => match s with None => None | Some (sum, index) => if Rle_dec v 0 then None else Some (sum + ln v, index + 1) end) l (Some (a, i))
     = Some (a + ln (times l), i + INR (length l)) /\ 0 < times l).
  { clear L. induction l as [|v l IH]; intros a i; cbn [fold_left times fold_right length].
    - rewrite ln_1. cbn. split; [do 2 f_equal; ring|lra].
    - pose proof (Hall v (or_introl eq_refl)) as Hv. destruct (Rle_dec v 0) as [G|_]; [lra|].
      destruct (IH (fun x Hx => Hall x (or_intror Hx)) (a + ln v) (i + 1)) as [E Ht']. rewrite E. fold (times l). split; [|now apply Rmult_lt_0_compat].
      rewrite ln_mult by assumption. rewrite S_INR. do 2 f_equal; ring. }
  destruct (E 0 0) as [E0 Hp]. rewrite E0, !Rplus_0_l. rewrite L. pose proof (not_0_INR (n * m * K) ltac:(lia)) as Hn.
  destruct (Req_EM_T (INR (n * m * K)) 0) as [G|_]; [contradiction|].
  eexists. split; [reflexivity|]. split; [apply exp_pos|].
  rewrite <- Rpower_pow by apply exp_pos. unfold Rpower. rewrite ln_exp. replace (INR (n * m * K) * _) with (ln (times l)) by (field; exact Hn). now apply exp_ln.
Qed.
Theorem geometric_mean_needs_positive : forall (t : tensor R) n m K f, is_tensor t n m K f ->
  (exists x, In x (elements n m K f) /\ x <= 0) -> geometricMean t = Ok None.
Proof.
  intros t n m K f Ht (x & Hx & Hle). unfold geometricMean.
  rewrite (scan_fold t n m K f (fun s v => match s with None => None | Some (sum, index) => if Rle_dec v 0 then None else Some (sum + ln v, index + 1) end) _ _ Ht) by reflexivity.
  cbn [obind]. revert Hx. generalize (elements n m K f). intros l Hx.
  assert (N : forall l, fold_left (fun s v => match s with None => None | Some (sum, index) => if Rle_dec v 0 then None else Some (sum + ln v, index + 1) end) l (@None (R * R)) = None).
  { induction l0 as [|v l0 IH]; [reflexivity|]. exact IH. }
  assert (E : forall s, fold_left (fun s v => match s with None => None | Some (sum, index) => if Rle_dec v 0 then None else Some (sum + ln v, index + 1) end) l s = None).
  { induction l as [|v l IH]; intros s; [destruct Hx|]. cbn [fold_left]. destruct Hx as [->|Hx]; [|now apply IH].
    destruct s as [[a i]|]; [|apply N]. destruct (Rle_dec x 0); [apply N|contradiction]. }
  now rewrite E.
Qed.

(** ** Examples *)
(** 2 x 3, one channel: 1 2 3 / 3 -1 3 *)
Definition ex_z : list Z := [1; 2; 3; 3; -1; 3]%Z.
Definition ex {A} (g : Z -> A) : tensor A := {| rows := 2; cols := 3; chans := 1; get := fun r c _ => Ok (g (nth (r * 3 + c) ex_z 0%Z)) |}.
Example ex_sum : Reduce_Model.sum zops (ex (fun z => z)) = Ok 11%Z /\ product zops (ex (fun z => z)) = Ok (-54)%Z.
Proof. split; reflexivity. Qed.
Example ex_is_tensor : forall A (g : Z -> A), is_tensor (ex g) 2 3 1 (fun r c _ => g (nth (r * 3 + c) ex_z 0%Z)).
Proof. intros A g. unfold is_tensor. repeat split. Qed.
Example ex_row : row_of (ex of_Z) 0 1 (fun i => of_Z (nth (3 + i) ex_z 0%Z)).
Proof. intros i Hi. split; [reflexivity|]. destruct i as [|[|[|i]]]; cbn in Hi; try lia; reflexivity. Qed.
Example ex_top : option_map (map (fun p => (fst p, to_bits (snd p)))) (match topIndices (ex of_Z) 2 0 1 with Ok l => Some l | _ => None end)
  = Some [(2%nat, to_bits (of_Z 3)); (0%nat, to_bits (of_Z 3))].
Proof. reflexivity. Qed.
Example ex_max_indices : maxIndices (ex of_Z) 0 1 = Ok [0; 2]%nat /\ maxIndexByRow (ex of_Z) 0 1 = Ok 0%nat /\ minIndex (ex of_Z) 0 1 = Ok 1%nat.
Proof. repeat split. Qed.
Example ex_norm_hyp : exists x, In x (elements 2 3 1 (fun r c _ => IZR (nth (r * 3 + c) ex_z 0%Z))) /\ x <> 0.
Proof. exists 1. split; [left; reflexivity|lra]. Qed.

Print Assumptions sum_is_the_sum.
Print Assumptions product_is_the_product.
Print Assumptions max_is_the_largest.
Print Assumptions min_is_the_smallest.
Print Assumptions range_is_min_and_max.
Print Assumptions index_of_max_by_row.
Print Assumptions index_of_max_by_col.
Print Assumptions index_of_min.
Print Assumptions indices_of_max.
Print Assumptions indices_of_min.
Print Assumptions top_indices_are_the_largest.
Print Assumptions mean_is_the_average.
Print Assumptions standard_deviation_is_the_root_of_the_variance.
Print Assumptions variance_is_the_variance.
Print Assumptions norm_is_the_root_of_the_squares.
Print Assumptions norm_of_zero_refuted.
Print Assumptions geometric_mean_is_the_root_of_the_product.
Print Assumptions geometric_mean_needs_positive.
