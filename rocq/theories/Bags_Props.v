(** Properties of the statistics of a tensor. *)
From Coq Require Import List Arith Bool ZArith Permutation Sorted Lia.
From Verif Require Import Outcome Float32_Spec QuarterFloat_Model Bags_Model Bags_Spec Bags_Proofs Bags_Proofs2.
Import ListNotations.
Local Open Scope Z_scope.

(** 1.0, 2.0, 3.0, -1.0, 100.0 and a NaN *)
Definition f1 : N := 1065353216. Definition f2 : N := 1073741824. Definition f3 : N := 1077936128.
Definition fm1 : N := 3212836864. Definition f100 : N := 1120403456. Definition fnan : N := 2143289344.
Definition one : Z := 2 ^ 149.
Example the_floats : f32_units f1 = one /\ f32_units f2 = 2 * one /\ f32_units f3 = 3 * one /\ f32_units fm1 = - one /\
  f32_units f100 = 100 * one /\ is_number fnan = false.
Proof. vm_compute. repeat split. Qed.

(** * C85: statistics do not depend on the threads *)

(** Whatever the size of the tensor and the order in which its threads finish, every code is counted as often as
    an element has it, and infinities and NaNs are left out.  Missing: the value of each bag, see below. *)
Theorem bag_counts_partial : forall bias t threads c, Permutation threads (parts t) ->
  snd (fill bias t threads c) = length (with_code bias c (elements t)).
Proof. exact fill_count. Qed.
Print Assumptions bag_counts_partial.

(** All threads together look at each element once. *)
Theorem threads_cover_tensor : forall t, Permutation (concat (parts t)) (elements t).
Proof. exact parts_elements. Qed.
Print Assumptions threads_cover_tensor.

(** In a big tensor, the value of a bag is 0 whenever the thread that finishes last has no element for the bag. *)
Theorem last_thread_decides_refuted : forall bias t threads l c,
  100000000 <= Z.of_nat (rows t) * Z.of_nat (cols t) -> with_code bias c l = [] ->
  fst (fill bias t (threads ++ [l]) c) = 0.
Proof. exact threads_forget_lemma. Qed.
Print Assumptions last_thread_decides_refuted.

(** Two rows, one of 1.0 and one of 100.0: the maximum is 100 or 1, by which thread finishes last. *)
Theorem maximum_of_threads_refuted : exists t threads threads', Permutation threads (parts t) /\ Permutation threads' (parts t) /\
  In f100 (elements t) /\ maxValue (fill 14 t threads) = 100 * one /\ maxValue (fill 14 t threads') = one.
Proof.
  destruct (Z_of_nat_complete 50000000 ltac:(lia)) as [n Hn].
  set (row := fun v => map (fun _ : nat => v) (seq 0 n) : list N).
  set (t := {| rows := 2; cols := n; chans := 1; at_ := fun r _ _ => if (r =? 0)%nat then f1 else f100 |}).
  assert (Hp : parts t = [row f1; row f100]).
  { unfold parts. subst t. cbn [rows cols chans at_]. destruct (Nat.leb_spec 2 n); [reflexivity|lia]. }
  assert (Hne : forall v, row v <> []) by (intros v E; apply (f_equal (@length N)) in E; subst row; cbn beta in E; rewrite map_length, seq_length in E; cbn [length] in E; lia).
  assert (Hall : forall v x, In x (row v) -> x = v) by (intros v x H; subst row; apply in_map_iff in H; destruct H as (? & <- & _); reflexivity).
  assert (Hf : forall threads, fill 14 t threads = fold_left merge (map (populate 14) threads) no_bags).
  { intros. unfold fill. subst t. cbn [rows cols]. rewrite <- Hn. reflexivity. }
  exists t, [row f1; row f100], [row f100; row f1]. rewrite Hp.
  split; [reflexivity|]. split; [apply perm_swap|]. split.
  { apply (Permutation_in _ (parts_elements t)). rewrite Hp. cbn [concat]. apply in_or_app. right. apply in_or_app. left.
    destruct (row f100) as [|x xs] eqn:E; [now apply Hne in E|]. left. apply Hall. rewrite E. now left. }
  rewrite !Hf. cbn [map fold_left].
  assert (G : forall v w, is_number v = true -> is_number w = true -> 0 < f32_units v -> 0 < f32_units w ->
    maxValue (merge (merge no_bags (populate 14 (row v))) (populate 14 (row w))) =
    maxValue (merge (merge no_bags (fun c => (if c =? code 14 v then f32_units v else 0, O))) (fun c => (if c =? code 14 w then f32_units w else 0, O)))).
  { intros v w Nv Nw Pv Pw. apply max_ext. intros c. unfold merge.
    pose proof (constant_part 14 (row v) v c Nv Pv (Hne v) (Hall v)) as A. pose proof (constant_part 14 (row w) w c Nw Pw (Hne w) (Hall w)) as B.
    destruct (populate 14 (row v) c) as [a i], (populate 14 (row w) c) as [d j]. cbn [fst] in A, B. subst a d. unfold no_bags. cbv iota beta.
    cbn [fst]. destruct (c =? code 14 v), (c =? code 14 w); reflexivity. }
  split; (rewrite G; [vm_compute; reflexivity|reflexivity..]).
Qed.
Print Assumptions maximum_of_threads_refuted.

(** * C86: the quarters and the 10 to 90 percent values *)

(** A bag holds the element furthest from 0 among those with its code. *)
Theorem bag_value : forall bias l, signs_apart bias l -> forall x, In x (numbers l) -> furthest bias l x (fst (populate bias l (code bias x))).
Proof. exact populate_value. Qed.
Print Assumptions bag_value.

(** With the elements rounded away from 0 and put in order as [s], the values kept are the lowest, those a quarter,
    two and three quarters up, and the highest.  Missing: signs that share a code, and big tensors. *)
Theorem quarters_are_order_statistics_partial : forall bias l s, numbers l <> [] -> signs_apart bias l -> rounded_and_sorted bias l s ->
  exists v, bag (elementCount (populate 14 l)) (populate bias l) = Ok v /\
  let n := length (numbers l) in
  quarterValues v = [nth 0 s 0; nth (n / 4 - 1) s 0; nth (2 * (n / 4) - 1) s 0; nth (3 * (n / 4) - 1) s 0; nth (n - 1) s 0].
Proof.
  intros bias l s Hn HS R. destruct (bag_populate bias l Hn) as (s' & x & y & Ss & P & E & _).
  assert (s' = s).
  { eapply rounded_unique; [exact HS| |exact R]. exists (map (rep bias l) (numbers l)). split; [now apply rounded_rep|].
    split; [exact P|now apply StronglySorted_Sorted]. }
  subst s'. rewrite elementCount_populate. eexists. split; [exact E|]. cbn [quarterValues].
  rewrite <- (Permutation_length P), map_length. reflexivity.
Qed.
Print Assumptions quarters_are_order_statistics_partial.

(** Of the other five values the first, second and last are right, and the two between are not too low. *)
Theorem ten_to_ninety_partial : forall bias l s, numbers l <> [] -> signs_apart bias l -> rounded_and_sorted bias l s ->
  exists v x y, bag (elementCount (populate 14 l)) (populate bias l) = Ok v /\
  let n := length (numbers l) in
  eightyValues v = [nth 0 s 0; nth (n / 10) s 0; x; y; nth (n - 1) s 0] /\
  nth (5 * (n / 10) - 1) s 0 <= x /\ x <= y <= nth (n - 1) s 0 /\ nth (9 * (n / 10) - 1) s 0 <= y.
Proof.
  intros bias l s Hn HS R. destruct (bag_populate bias l Hn) as (s' & x & y & Ss & P & E & B).
  assert (s' = s).
  { eapply rounded_unique; [exact HS| |exact R]. exists (map (rep bias l) (numbers l)). split; [now apply rounded_rep|].
    split; [exact P|now apply StronglySorted_Sorted]. }
  subst s'. rewrite elementCount_populate. cbv zeta in *.
  assert (En : length s = length (numbers l)) by (rewrite <- (Permutation_length P); apply map_length).
  rewrite En in *. eexists _, x, y. split; [exact E|]. split; [reflexivity|exact B].
Qed.
Print Assumptions ten_to_ninety_partial.

(** When one value makes up more than nine tenths, the 50 and 90 percent values are taken from the values after it. *)
Theorem ten_to_ninety_refuted : forall a b c x y z, (0 < y)%nat -> (0 < z)%nat ->
  let n := (x + y + z)%nat in (9 * (n / 10) <= x)%nat -> (n / 10 < x)%nat ->
  calculateEightyPercent n [(a, x); (b, y); (c, z)] = Ok [a; a; b; c; c].
Proof.
  intros a b c x y z Hy Hz n H9 H1. unfold calculateEightyPercent.
  assert (H10 : (10 * (n / 10) <= n)%nat) by (apply Nat.mul_div_le; lia).
  cbv zeta. rewrite (Nat.min_r (n / 2)) by (apply Nat.div_le_lower_bound; lia). rewrite (Nat.min_r (9 * n / 10)) by (apply Nat.div_le_lower_bound; lia).
  set (k := (n / 10)%nat) in *. clearbody k. cbn [fst eighty_loop length Nat.eqb andb Nat.add].
  destruct (Nat.ltb_spec k x); [|lia]. cbn [app length Nat.eqb andb].
  destruct (Nat.leb_spec (5 * k) (x + y)); [|lia]. cbn [app length Nat.eqb andb].
  destruct (Nat.leb_spec (9 * k) (x + y + z)); [|lia]. reflexivity.
Qed.
Print Assumptions ten_to_ninety_refuted.

(** When different numbers have different codes, nothing is rounded. *)
Lemma nothing_rounded : forall bias l s, (forall x y, In x (numbers l) -> In y (numbers l) -> code bias x = code bias y -> x = y) ->
  Permutation (map f32_units (numbers l)) s -> Sorted Z.le s -> signs_apart bias l /\ rounded_and_sorted bias l s.
Proof.
  intros bias l s H P S0. split; [intros x y Hx Hy E; now rewrite (H x y Hx Hy E)|].
  exists (map f32_units (numbers l)). split; [|now split].
  assert (G : forall k, incl k (numbers l) -> Forall2 (furthest bias l) k (map f32_units k)).
  { induction k as [|a k IH]; intros I; cbn [map]; constructor; [|apply IH; intros x Hx; apply I; now right].
    assert (Ia : In a (numbers l)) by (apply I; now left). split; [exists a; now repeat split|].
    intros y Hy E. rewrite (H y a Hy Ia E). lia. }
  apply G, incl_refl.
Qed.

(** Nine times 1, then 2 and 3: the ninth of the eleven elements in order is 1, and the value kept for 90 percent is 3. *)
Theorem ninety_percent_refuted : exists bias l s v, signs_apart bias l /\ rounded_and_sorted bias l s /\
  bag (elementCount (populate 14 l)) (populate bias l) = Ok v /\ length (numbers l) = 11%nat /\
  nth (9 * (11 / 10) - 1) s 0 = one /\ nth_error (eightyValues v) 3 = Some (3 * one).
Proof.
  set (l := repeat f1 9 ++ [f2; f3]). set (s := map f32_units l).
  exists 8, l, s.
  assert (R : signs_apart 8 l /\ rounded_and_sorted 8 l s).
  { apply nothing_rounded; [|reflexivity|repeat constructor; vm_compute; discriminate].
    assert (G : forall u, In u (numbers l) -> u = f1 \/ u = f2 \/ u = f3).
    { intros v Hv. apply filter_In in Hv. destruct Hv as [Hv _]. subst l. apply in_app_or in Hv. destruct Hv as [Hv|[<-|[<-|[]]]]; [apply repeat_spec in Hv|..]; auto. }
    intros x y Hx Hy E. destruct (G x Hx) as [->|[->| ->]], (G y Hy) as [->|[->| ->]]; try reflexivity; vm_compute in E; discriminate. }
  destruct R as [HS HR]. destruct (bag (elementCount (populate 14 l)) (populate 8 l)) as [v| |] eqn:E; [|vm_compute in E; discriminate..].
  exists v. split; [exact HS|]. split; [exact HR|]. split; [reflexivity|]. split; [reflexivity|]. split; [vm_compute; reflexivity|].
  vm_compute in E. injection E as <-. vm_compute. reflexivity.
Qed.
Print Assumptions ninety_percent_refuted.

(** A tensor without a single number, or without elements at all: the first and the last bag are read although there
    is none. *)
Theorem no_numbers_refuted : forall t f r threads, Permutation threads (parts t) -> numbers (elements t) = [] -> TensorStats t f r threads = UB.
Proof. exact stats_none_lemma. Qed.
Print Assumptions no_numbers_refuted.

Definition of_row (l : list N) : tensor := {| rows := 1; cols := length l; chans := 1; at_ := fun _ c _ => nth c l 0%N |}.
Example all_nan : numbers (elements (of_row [fnan; fnan])) = [] /\ TensorStats (of_row [fnan; fnan]) For_100 true (parts (of_row [fnan; fnan])) = UB.
Proof. split; [reflexivity|]. apply no_numbers_refuted; reflexivity. Qed.

(** * C87: the recommended bias and offset *)

(** For a fit of all elements with 0: with the lowest [m] and the highest [M] of the elements and 0, the offset is
    halfway between, and the bias is the largest of the five whose 8-bit numbers span as much as there is from
    [m] to [M], or -4.  [b] is a bias whose numbers reach from the lowest to the highest element.  Missing: numbers of different
    signs that share a code, the other fits, and big tensors. *)
Theorem recommended_window_partial : forall t threads b, let l := elements t in
  Z.of_nat (rows t) * Z.of_nat (cols t) < 100000000 -> numbers l <> [] -> In b [14; 8; 4; 1; -4] ->
  (b <> -4 -> forall x, In x (numbers l) -> Z.abs (f32_units x) <= half_width b) ->
  (forall b', In b' [14; 8; 4; 1; -4] -> b <= b' -> signs_apart b' l) ->
  exists m M rb, lowest l m /\ highest l M /\ TensorStats t For_100 true threads = Ok (rb, m + M) /\ In rb [14; 8; 4; 1; -4] /\
    (rb = -4 \/ M - m <= 2 * half_width rb) /\ (forall b', In b' [14; 8; 4; 1; -4] -> rb < b' -> 2 * half_width b' < M - m).
Proof. exact stats_100_lemma. Qed.
Print Assumptions recommended_window_partial.

(** Every element, less the offset, then lies within the numbers of the bias (twice both sides, as the offset is
    given twice). *)
Theorem recommended_covers_partial : forall t threads b, let l := elements t in
  Z.of_nat (rows t) * Z.of_nat (cols t) < 100000000 -> numbers l <> [] -> In b [14; 8; 4; 1] ->
  (forall x, In x (numbers l) -> Z.abs (f32_units x) <= half_width b) ->
  (forall b', In b' [14; 8; 4; 1; -4] -> b <= b' -> signs_apart b' l) ->
  exists rb offset2, TensorStats t For_100 true threads = Ok (rb, offset2) /\
    forall x, In x (numbers l) -> Z.abs (2 * f32_units x - offset2) <= 2 * half_width rb.
Proof.
  intros t threads b l Hs Hn Hb Hf HS.
  destruct (recommended_window_partial t threads b Hs Hn) as (m & M & rb & Hm & HM & E & Hrb & Hw & Hlow).
  - cbn in Hb |- *. lia.
  - intros _. exact Hf.
  - exact HS.
  - exists rb, (m + M). split; [exact E|]. fold l in Hm, HM.
    assert (Hr : M - m <= 2 * half_width rb).
    { destruct Hw as [->|Hw]; [|exact Hw]. exfalso. assert (Hb' : In b [14; 8; 4; 1; -4]) by (cbn in Hb |- *; lia).
      specialize (Hlow b Hb' ltac:(cbn in Hb; lia)). destruct Hm as ([->|(y & Hy & <-)] & _), HM as ([->|(z & Hz & <-)] & _).
      - pose proof (half_width_pos b ltac:(cbn in Hb; lia)). lia.
      - specialize (Hf z Hz). lia.
      - specialize (Hf y Hy). lia.
      - pose proof (Hf y Hy). specialize (Hf z Hz). lia. }
    intros x Hx. destruct Hm as (_ & _ & Hm), HM as (_ & _ & HM). specialize (Hm x Hx). specialize (HM x Hx). lia.
Qed.
Print Assumptions recommended_covers_partial.

(** -1, 1, a NaN and 3: offset 1 and bias 8, whose numbers reach 120. *)
Example window_example : let l := [fm1; f1; fnan; f3] in
  elements (of_row l) = l /\ (forall x, In x (numbers l) -> Z.abs (f32_units x) <= half_width 8) /\
  (forall b', In b' [14; 8; 4; 1; -4] -> 8 <= b' -> signs_apart b' l) /\
  TensorStats (of_row l) For_100 true (parts (of_row l)) = Ok (8, 2 * one).
Proof.
  cbv zeta. split; [reflexivity|]. split; [|split].
  - intros x [<-|[<-|[<-|[]]]]; vm_compute; discriminate.
  - intros b' Hb Hle x y Hx Hy E. assert (b' = 14 \/ b' = 8) as [-> | ->] by (cbn in Hb; lia);
      destruct Hx as [<-|[<-|[<-|[]]]], Hy as [<-|[<-|[<-|[]]]]; try reflexivity; vm_compute in E; discriminate.
  - vm_compute. reflexivity.
Qed.

(** When different numbers have different codes, all fits but that of 80 percent: with [m] and [M] the first and the last of the sorted
    numbers, or those a quarter and three quarters up, stretched to 0 if it is required, the bias is the largest of the five whose
    numbers span as much as there is from [m] to [M], or -4; the offset is halfway between, or the middle element for the fit
    of 50 percent without 0. *)
Theorem recommended_fits_partial : forall t threads b s f (require0 : bool), let l := elements t in let n := length s in
  f <> For_80 -> Z.of_nat (rows t) * Z.of_nat (cols t) < 100000000 -> numbers l <> [] -> In b [14; 8; 4; 1; -4] ->
  (b <> -4 -> forall x, In x (numbers l) -> Z.abs (f32_units x) <= half_width b) ->
  (forall b', In b' [14; 8; 4; 1; -4] -> b <= b' -> forall x y, In x (numbers l) -> In y (numbers l) -> code b' x = code b' y -> x = y) ->
  Permutation (map f32_units (numbers l)) s -> Sorted Z.le s ->
  let lo := match f with For_50 => nth (n / 4 - 1) s 0 | _ => nth 0 s 0 end in
  let hi := match f with For_50 => nth (3 * (n / 4) - 1) s 0 | _ => nth (n - 1) s 0 end in
  let m := if require0 then Z.min 0 lo else lo in let M := if require0 then Z.max 0 hi else hi in
  exists rb, TensorStats t f require0 threads = Ok (rb, match f, require0 with For_50, false => 2 * nth (2 * (n / 4) - 1) s 0 | _, _ => m + M end) /\
    In rb [14; 8; 4; 1; -4] /\ (rb = -4 \/ M - m <= 2 * half_width rb) /\ (forall b', In b' [14; 8; 4; 1; -4] -> rb < b' -> 2 * half_width b' < M - m).
Proof.
  intros t threads b s f require0 l n Hf Hsmall Hn Hb Hfit HS P S0 lo hi m M.
  assert (Ln : n = length (numbers l)) by (unfold n; rewrite <- (Permutation_length P); apply map_length).
  assert (Hpos : (0 < n)%nat) by (rewrite Ln; destruct (numbers l); [congruence|cbn; lia]).
  assert (Ss : StronglySorted Z.le s) by (apply Sorted_StronglySorted; [intros a c d; lia|exact S0]).
  assert (Q : (4 * (n / 4) <= n)%nat) by (apply Nat.mul_div_le; lia).
  assert (Hlohi : lo <= hi) by (unfold lo, hi; destruct f; apply sorted_nth; try assumption; fold n; lia).
  assert (Hbound : forall i, (i < n)%nat -> b <> -4 -> Z.abs (nth i s 0) <= half_width b).
  { intros i Hi N4. assert (I : In (nth i s 0) (map f32_units (numbers l))) by (eapply Permutation_in; [symmetry; exact P|now apply nth_In]).
    apply in_map_iff in I. destruct I as (z & <- & Hz). now apply Hfit. }
  apply (stats_search t threads b f require0 (M - m)); try assumption.
  - intros b' Hb' Hle. destruct (nothing_rounded b' l s (HS b' Hb' Hle) P S0) as [SA R].
    destruct (bag_populate b' l Hn) as (s' & x & y & Ss' & P' & E & _).
    assert (s' = s).
    { eapply rounded_unique; [exact SA| |exact R]. exists (map (rep b' l) (numbers l)). split; [now apply rounded_rep|]. split; [exact P'|now apply StronglySorted_Sorted]. }
    subst s'. eexists. split; [exact E|]. fold n.
    destruct f; [|congruence|]; destruct require0; cbn [range range_of offset_of quarterValues eightyValues length Nat.eqb at_index nth_error obind];
      fold n; (split; [f_equal|f_equal]); unfold m, M, lo, hi in *; clear - Hlohi; lia.
  - intros N4. assert (Z.abs lo <= half_width b /\ Z.abs hi <= half_width b) as [B1 B2] by (unfold lo, hi; destruct f; split; apply Hbound; try assumption; lia).
    pose proof (half_width_pos b ltac:(cbn in Hb; lia)). unfold m, M. clear - B1 B2 H Hlohi. destruct require0; lia.
Qed.
Print Assumptions recommended_fits_partial.
(** 1 and 3: around 2 if 0 need not be among them; around 3/2 otherwise. *)
Example fits_example : let l := [f3; f1] in
  (forall b', In b' [14; 8; 4; 1; -4] -> 8 <= b' -> forall x y, In x (numbers l) -> In y (numbers l) -> code b' x = code b' y -> x = y) /\
  TensorStats (of_row l) For_100 false (parts (of_row l)) = Ok (14, 4 * one) /\ TensorStats (of_row l) For_100 true (parts (of_row l)) = Ok (14, 3 * one).
Proof.
  cbv zeta. split; [|split].
  - intros b' Hb Hle x y Hx Hy E. assert (b' = 14 \/ b' = 8) as [-> | ->] by (cbn in Hb; lia);
      destruct Hx as [<-|[<-|[]]], Hy as [<-|[<-|[]]]; try reflexivity; vm_compute in E; discriminate.
  - vm_compute. reflexivity.
  - vm_compute. reflexivity.
Qed.

(** Without the condition on signs an element can fall outside although the bias is not -4: of -15, 1 and 30700 the
    first two share a code for bias -4, where the range is looked for. *)
Theorem recommended_covers_refuted : exists t threads rb offset2 x, Permutation threads (parts t) /\
  Z.of_nat (rows t) * Z.of_nat (cols t) < 100000000 /\ TensorStats t For_100 true threads = Ok (rb, offset2) /\ rb <> -4 /\
  In x (numbers (elements t)) /\ 2 * half_width rb < Z.abs (2 * f32_units x - offset2).
Proof.
  set (t := of_row [3245342720; f1; 1190123520]%N). exists t, (parts t), 1, (30670 * one), 1190123520%N.
  split; [reflexivity|]. split; [vm_compute; reflexivity|]. split; [vm_compute; reflexivity|]. split; [discriminate|].
  split; [right; right; left; reflexivity|vm_compute; reflexivity].
Qed.
Print Assumptions recommended_covers_refuted.

(** The hypotheses of the theorems on quarters hold for -1, 1, 2, 3 and 100 with bias 4. *)
Example quarters_example : let l := [f3; f100; fm1; f1; fnan; f2] in
  signs_apart 4 l /\ rounded_and_sorted 4 l (map (Z.mul one) [-1; 1; 2; 3; 100]).
Proof.
  cbv zeta. apply nothing_rounded.
  - intros x y Hx Hy E. destruct Hx as [<-|[<-|[<-|[<-|[<-|[]]]]]], Hy as [<-|[<-|[<-|[<-|[<-|[]]]]]]; try reflexivity; vm_compute in E; discriminate.
  - apply NoDup_Permutation; [..|intros v]; vm_compute; [repeat constructor; cbn; lia..|tauto].
  - repeat constructor; vm_compute; discriminate.
Qed.
