(** Lemmas for the reductions. *)
From Coq Require Import List Arith Bool Lia Reals Lra Sorted Permutation.
From Flocq Require Import Core IEEE754.BinarySingleNaN IEEE754.Binary IEEE754.Bits.
From Verif Require Import Outcome Tensor_Model Tensor_Spec Views_Proofs Algebra_Proofs F32_Model F32_Proofs Encode_Proofs Scaling_Spec Scaling_Proofs Reduce_Model Reduce_Spec.
Import ListNotations.
Local Open Scope nat_scope.

(** ** Scans are folds over the elements *)
Lemma loop_fold_from : forall {St B} (g : nat -> B) (step : St -> B -> St) n i (body : nat -> St -> outcome St) s,
  (forall j s, i <= j < i + n -> body j s = Ok (step s (g j))) ->
  loop n i body s = Ok (fold_left step (map g (seq i n)) s).
Proof.
  intros St B g step n. induction n as [|n IH]; intros i body s H; [reflexivity|].
  cbn [loop seq map fold_left]. rewrite H by lia. cbn [obind]. apply IH. intros j s' Hj. apply H. lia.
Qed.

Lemma fold_concat : forall {St B} (step : St -> B -> St) (l : list (list B)) s,
  fold_left step (concat l) s = fold_left (fun s l => fold_left step l s) l s.
Proof. intros St B step l. induction l as [|x l IH]; intros s; [reflexivity|]. cbn. rewrite fold_left_app. apply IH. Qed.

Lemma scan_fold : forall {A St} (t : tensor A) n m K f (step : St -> A -> St) (body : St -> A -> outcome St) s,
  is_tensor t n m K f -> (forall s v, body s v = Ok (step s v)) ->
  scan t body s = Ok (fold_left step (elements n m K f) s).
Proof.
  intros A St t n m K f step body s (H1 & H2 & H3 & H) Hb. unfold scan, elements. rewrite H1, H2, H3.
  rewrite fold_concat.
  rewrite (loop_fold_from (fun k => concat (map (fun r => map (fun c => f r c k) (seq 0 m)) (seq 0 n))) (fun s l => fold_left step l s) K 0); [reflexivity|].
  intros k s1 Hk. rewrite fold_concat.
  rewrite (loop_fold_from (fun r => map (fun c => f r c k) (seq 0 m)) (fun s l => fold_left step l s) n 0); [reflexivity|].
  intros r s2 Hr.
  rewrite (loop_fold_from (fun c => f r c k) step m 0); [reflexivity|].
  intros c s3 Hc. rewrite H by lia. cbn [obind]. apply Hb.
Qed.

Lemma concat_const_length : forall {B} (l : list (list B)) n, (forall x, In x l -> length x = n) -> length (concat l) = length l * n.
Proof.
  intros B l n. induction l as [|x l IH]; intros H; [reflexivity|]. cbn. rewrite app_length, IH, (H x) by (auto with datatypes). reflexivity.
Qed.

Lemma elements_length : forall {A} n m K (f : nat -> nat -> nat -> A), length (elements n m K f) = n * m * K.
Proof.
  intros A n m K f. unfold elements. rewrite (concat_const_length _ (n * m)).
  - rewrite map_length, seq_length. lia.
  - intros x Hx. apply in_map_iff in Hx as (k & <- & _). rewrite (concat_const_length _ m).
    + now rewrite map_length, seq_length.
    + intros y Hy. apply in_map_iff in Hy as (r & <- & _). now rewrite map_length, seq_length.
Qed.

Lemma elements_in : forall {A} n m K (f : nat -> nat -> nat -> A) v,
  In v (elements n m K f) <-> exists r c k, r < n /\ c < m /\ k < K /\ f r c k = v.
Proof.
  intros A n m K f v. unfold elements. rewrite in_concat. split.
  - intros (x & Hx & Hv). apply in_map_iff in Hx as (k & <- & Hk). apply in_seq in Hk.
    apply in_concat in Hv as (y & Hy & Hv). apply in_map_iff in Hy as (r & <- & Hr). apply in_seq in Hr.
    apply in_map_iff in Hv as (c & <- & Hc). apply in_seq in Hc. exists r, c, k. repeat split; lia.
  - intros (r & c & k & Hr & Hc & Hk & <-). eexists. split.
    + apply in_map_iff. exists k. split; [reflexivity|]. apply in_seq. lia.
    + apply in_concat. eexists. split.
      * apply in_map_iff. exists r. split; [reflexivity|]. apply in_seq. lia.
      * apply in_map_iff. exists c. split; [reflexivity|]. apply in_seq. lia.
Qed.

Lemma nth_seq_map : forall {B} (g : nat -> B) n i d, i < n -> nth i (map g (seq 0 n)) d = g i.
Proof.
  intros B g n i d Hi. rewrite (nth_indep _ d (g 0)) by (rewrite map_length, seq_length; exact Hi).
  rewrite map_nth, seq_nth by exact Hi. reflexivity.
Qed.

(** The element number r * m + c + k * (n * m). *)
Lemma nth_concat : forall {B} (l : list (list B)) n d i j, (forall x, In x l -> length x = n) -> i < length l -> j < n ->
  nth (i * n + j) (concat l) d = nth j (nth i l []) d.
Proof.
  intros B l n d. induction l as [|x l IH]; intros i j H Hi Hj; [cbn in Hi; lia|].
  cbn [concat]. pose proof (H x (or_introl eq_refl)) as Lx. destruct i as [|i].
  - rewrite app_nth1 by lia. reflexivity.
  - rewrite app_nth2 by (rewrite Lx; lia). rewrite Lx. replace (S i * n + j - n) with (i * n + j) by lia.
    cbn [nth]. apply IH; [intros y Hy; apply H; now right|cbn in Hi; lia|exact Hj].
Qed.

Lemma elements_nth : forall {A} n m K (f : nat -> nat -> nat -> A) d r c k, r < n -> c < m -> k < K ->
  nth (k * (n * m) + (r * m + c)) (elements n m K f) d = f r c k.
Proof.
  intros A n m K f d r c k Hr Hc Hk. unfold elements.
  assert (L : forall x, In x (map (fun k => concat (map (fun r => map (fun c => f r c k) (seq 0 m)) (seq 0 n))) (seq 0 K)) -> length x = n * m).
  { intros x Hx. apply in_map_iff in Hx as (k' & <- & _). rewrite (concat_const_length _ m).
    + now rewrite map_length, seq_length.
    + intros y Hy. apply in_map_iff in Hy as (r' & <- & _). now rewrite map_length, seq_length. }
  rewrite (nth_concat _ (n * m) d k (r * m + c) L); [|rewrite map_length, seq_length; exact Hk|nia].
  rewrite nth_seq_map by exact Hk.
  rewrite (nth_concat _ m d r c).
  - rewrite nth_seq_map by exact Hr. now rewrite nth_seq_map.
  - intros x Hx. apply in_map_iff in Hx as (r' & <- & _). now rewrite map_length, seq_length.
  - now rewrite map_length, seq_length.
  - exact Hc.
Qed.

Lemma flat_nth : forall {A} (t : tensor A) n m K f d i, is_tensor t n m K f -> i < n * m * K ->
  flat t i = Ok (nth i (elements n m K f) d).
Proof.
  intros A t n m K f d i Ht Hi. pose proof Ht as (H1 & H2 & H3 & H).
  destruct (flat_split t i) as (r & c & k & (Hr & Hc & Hk) & E).
  { unfold size. rewrite H1, H2, H3. exact Hi. }
  rewrite E, flat_pos by assumption. rewrite H1, H2, H3 in *. rewrite H by assumption.
  replace (r * m + c + k * (n * m)) with (k * (n * m) + (r * m + c)) by lia.
  now rewrite elements_nth.
Qed.

Lemma loop_flat : forall {A St} (t : tensor A) n m K f (step : St -> A -> St) (body : St -> A -> outcome St) s,
  is_tensor t n m K f -> (forall s v, body s v = Ok (step s v)) ->
  loop (size t) 0 (fun i s => do v <- flat t i; body s v) s = Ok (fold_left step (elements n m K f) s).
Proof.
  intros A St t n m K f step body s Ht Hb. pose proof Ht as (H1 & H2 & H3 & H).
  assert (Es : size t = n * m * K) by (unfold size; now rewrite H1, H2, H3).
  rewrite Es. destruct (elements n m K f) as [|d l] eqn:El.
  - pose proof (elements_length n m K f) as L. rewrite El in L. cbn in L. rewrite <- L. reflexivity.
  - rewrite (loop_fold_from (fun i => nth i (elements n m K f) d) step).
    + f_equal. f_equal. rewrite <- El. apply (nth_ext _ _ d d).
      * now rewrite map_length, seq_length, elements_length.
      * intros i Hi. rewrite map_length, seq_length in Hi.
        now rewrite nth_seq_map.
    + intros j s' Hj. rewrite (flat_nth t n m K f d j Ht) by lia. cbn [obind]. apply Hb.
Qed.

(** ** Order on floats *)
Lemma number_no_nan x : number x = true <-> no_nan x.
Proof. unfold number, no_nan. destruct (is_nan 24 128 x); cbn; split; congruence. Qed.
Lemma order_rv x : order x = rv x.
Proof. destruct x as [s|s|s pl e|s m e b]; try reflexivity. Qed.
Lemma fgt_order x y : number x = true -> number y = true -> (fgt x y = true <-> (order y < order x)%R).
Proof. rewrite !number_no_nan, !order_rv. apply fgt_rv. Qed.
Lemma flt_fgt x y : flt x y = fgt y x.
Proof.
  unfold flt, fgt, b32_compare. rewrite (Bcompare_swap 24 128 x y). destruct (Bcompare 24 128 x y) as [[]|]; reflexivity.
Qed.
Lemma flt_order x y : number x = true -> number y = true -> (flt x y = true <-> (order x < order y)%R).
Proof. intros Hx Hy. rewrite flt_fgt. now apply fgt_order. Qed.
Lemma compare_nan_l x y : number x = false -> b32_compare x y = None.
Proof. destruct x; try discriminate. reflexivity. Qed.
Lemma compare_nan_r x y : number y = false -> b32_compare x y = None.
Proof. destruct y; try discriminate. destruct x; reflexivity. Qed.
Lemma feq_order x y : number x = true -> number y = true -> (feq x y = true <-> order x = order y).
Proof.
  intros Hx Hy. pose proof (fgt_order x y Hx Hy) as G. pose proof (fgt_order y x Hy Hx) as L. rewrite <- flt_fgt in L.
  unfold flt, fgt, feq in *. destruct (b32_compare x y) as [[]|] eqn:E.
  - split; [intros _|reflexivity]. destruct G as [_ G], L as [_ L].
    destruct (Rtotal_order (order x) (order y)) as [H|[H|H]]; [specialize (L H); discriminate|exact H|specialize (G H); discriminate].
  - split; [discriminate|]. intros H. destruct L as [L _]. specialize (L eq_refl). lra.
  - split; [discriminate|]. intros H. destruct G as [G _]. specialize (G eq_refl). lra.
  - exfalso. unfold b32_compare, Bcompare in E. destruct x; try discriminate; destruct y; discriminate.
Qed.
Lemma order_bounds x : (- bpow radix2 128 <= order x <= bpow radix2 128)%R.
Proof.
  pose proof (val_lt_max x) as B. apply Rabs_def2 in B. pose proof (bpow_gt_0 radix2 128).
  rewrite order_rv. unfold rv. destruct x as [s|s|s pl e|s m e b]; cbn in *; try lra. destruct s; lra.
Qed.
Lemma order_neg_inf x : number x = true -> (order x <= order (infinity_ true))%R -> x = infinity_ true.
Proof.
  intros Hx H. pose proof (val_lt_max x) as B. apply Rabs_def2 in B. pose proof (bpow_gt_0 radix2 128).
  rewrite order_rv in H. unfold rv in H. destruct x as [s|s|s pl e|s m e b]; try discriminate; cbn in *; try lra.
  destruct s; [reflexivity|lra].
Qed.
Lemma order_pos_inf x : number x = true -> (order (infinity_ false) <= order x)%R -> x = infinity_ false.
Proof.
  intros Hx H. pose proof (val_lt_max x) as B. apply Rabs_def2 in B. pose proof (bpow_gt_0 radix2 128).
  rewrite order_rv in H. unfold rv in H. destruct x as [s|s|s pl e|s m e b]; try discriminate; cbn in *; try lra.
  destruct s; [lra|reflexivity].
Qed.

(** ** Largest and smallest *)
Lemma fold_max_spec : forall l cur, number cur = true ->
  let r := fold_left std_max l cur in number r = true /\ (order cur <= order r)%R /\
  (r = cur \/ In r (filter number l)) /\ forall x, In x (filter number l) -> (order x <= order r)%R.
Proof.
  induction l as [|v l IH]; intros cur Hc; cbv zeta in *; cbn [fold_left filter].
  - split; [exact Hc|]. split; [lra|]. split; [now left|]. intros x [].
  - destruct (number v) eqn:Nv.
    + assert (Es : std_max cur v = if flt cur v then v else cur) by reflexivity. destruct (flt cur v) eqn:E; rewrite Es.
      * apply (flt_order cur v Hc Nv) in E. destruct (IH v Nv) as (H1 & H2 & H3 & H4). split; [exact H1|]. split; [lra|]. split.
        -- right. destruct H3 as [->|H3]; [now left|now right].
        -- intros x [<-|Hx]; [exact H2|now apply H4].
      * assert (E' : ~ (order cur < order v)%R) by (intros G; apply (flt_order cur v Hc Nv) in G; congruence).
        destruct (IH cur Hc) as (H1 & H2 & H3 & H4). split; [exact H1|]. split; [lra|]. split.
        -- destruct H3 as [->|H3]; [now left|right; now right].
        -- intros x [<-|Hx]; [lra|now apply H4].
    + assert (Es : std_max cur v = cur) by (unfold std_max, flt; now rewrite compare_nan_r by exact Nv). rewrite Es. apply IH. exact Hc.
Qed.
Lemma fold_min_spec : forall l cur, number cur = true ->
  let r := fold_left std_min l cur in number r = true /\ (order r <= order cur)%R /\
  (r = cur \/ In r (filter number l)) /\ forall x, In x (filter number l) -> (order r <= order x)%R.
Proof.
  induction l as [|v l IH]; intros cur Hc; cbv zeta in *; cbn [fold_left filter].
  - split; [exact Hc|]. split; [lra|]. split; [now left|]. intros x [].
  - destruct (number v) eqn:Nv.
    + assert (Es : std_min cur v = if flt v cur then v else cur) by reflexivity. destruct (flt v cur) eqn:E; rewrite Es.
      * apply (flt_order v cur Nv Hc) in E. destruct (IH v Nv) as (H1 & H2 & H3 & H4). split; [exact H1|]. split; [lra|]. split.
        -- right. destruct H3 as [->|H3]; [now left|now right].
        -- intros x [<-|Hx]; [exact H2|now apply H4].
      * assert (E' : ~ (order v < order cur)%R) by (intros G; apply (flt_order v cur Nv Hc) in G; congruence).
        destruct (IH cur Hc) as (H1 & H2 & H3 & H4). split; [exact H1|]. split; [lra|]. split.
        -- destruct H3 as [->|H3]; [now left|right; now right].
        -- intros x [<-|Hx]; [lra|now apply H4].
    + assert (Es : std_min cur v = cur) by (unfold std_min, flt; now rewrite compare_nan_l by exact Nv). rewrite Es. apply IH. exact Hc.
Qed.

Lemma fold_max_largest : forall l, filter number l <> [] -> largest (filter number l) (fold_left std_max l (infinity_ true)).
Proof.
  intros l Hl. destruct (fold_max_spec l (infinity_ true) eq_refl) as (H1 & H2 & H3 & H4). split; [|exact H4].
  destruct H3 as [E|H3]; [|exact H3]. destruct (filter number l) as [|x k] eqn:El; [congruence|].
  rewrite E. specialize (H4 x (or_introl eq_refl)). rewrite E in H4. left. apply order_neg_inf; [|exact H4].
  assert (Hx : In x (filter number l)) by (rewrite El; now left). apply filter_In in Hx. apply Hx.
Qed.
Lemma fold_min_smallest : forall l, filter number l <> [] -> smallest (filter number l) (fold_left std_min l (infinity_ false)).
Proof.
  intros l Hl. destruct (fold_min_spec l (infinity_ false) eq_refl) as (H1 & H2 & H3 & H4). split; [|exact H4].
  destruct H3 as [E|H3]; [|exact H3]. destruct (filter number l) as [|x k] eqn:El; [congruence|].
  rewrite E. specialize (H4 x (or_introl eq_refl)). rewrite E in H4. left. apply order_pos_inf; [|exact H4].
  assert (Hx : In x (filter number l)) by (rewrite El; now left). apply filter_In in Hx. apply Hx.
Qed.
Lemma fold_nothing : forall l, filter number l = [] ->
  fold_left std_max l (infinity_ true) = infinity_ true /\ fold_left std_min l (infinity_ false) = infinity_ false.
Proof.
  intros l Hl. destruct (fold_max_spec l (infinity_ true) eq_refl) as (_ & _ & H3 & _).
  destruct (fold_min_spec l (infinity_ false) eq_refl) as (_ & _ & G3 & _). rewrite Hl in H3, G3. split.
  - destruct H3 as [H|[]]. exact H.
  - destruct G3 as [H|[]]. exact H.
Qed.

(** ** Index of the best *)
Section Best.
Variable better : F -> F -> bool.
Variable key : F -> R.
Variable start : F.
Hypothesis better_key : forall x y, number x = true -> number y = true -> (better x y = true <-> (key y < key x)%R).
Hypothesis better_nan : forall x y, number x = false -> better x y = false.
Hypothesis feq_key : forall x y, number x = true -> number y = true -> (feq x y = true <-> key x = key y).
Hypothesis start_number : number start = true.
Hypothesis start_least : forall x, number x = true -> (key start <= key x)%R.

Lemma best_index_spec : forall n value f, (forall i, i < n -> value i = Ok (f i)) ->
  exists k, best_index better start n value = Ok k /\
  (((exists i, i < n /\ number (f i) = true /\ (key start < key (f i))%R) /\
    k < n /\ number (f k) = true /\
    (forall i, i < n -> number (f i) = true -> (key (f i) <= key (f k))%R) /\
    (forall i, i < k -> number (f i) = true -> (key (f i) < key (f k))%R)) \/
   ((forall i, i < n -> number (f i) = true -> key (f i) = key start) /\ k = 0)).
Proof.
  intros n value f Hv. unfold best_index.
  destruct (loop_inv (fun m (s : nat * F) => number (snd s) = true /\
     ((fst s < m /\ snd s = f (fst s) /\ (key start < key (snd s))%R /\
       (forall i, i < m -> number (f i) = true -> (key (f i) <= key (snd s))%R) /\
       (forall i, i < fst s -> number (f i) = true -> (key (f i) < key (snd s))%R)) \/
      (s = (0, start) /\ forall i, i < m -> number (f i) = true -> key (f i) = key start)))
     n (fun i '(result, current) => do v <- value i; Ok (if better v current then (i, v) else (result, current))) (0, start))
    as ([k cur] & E & Nc & H).
  - split; [exact start_number|]. right. split; [reflexivity|]. intros i Hi; lia.
  - intros i [res cur] Hi [Nc H]. cbn [fst snd] in *. rewrite Hv by exact Hi. cbn [obind]. eexists. split; [reflexivity|].
    destruct (number (f i)) eqn:Nf.
    + destruct (better (f i) cur) eqn:B.
      * apply (better_key _ _ Nf Nc) in B. cbn [fst snd]. split; [exact Nf|]. left. split; [lia|]. split; [reflexivity|].
        assert (A : forall j, j < i -> number (f j) = true -> (key (f j) < key (f i))%R).
        { intros j Hj Nj. destruct H as [(_ & _ & _ & H & _)|[Hs H]].
          - specialize (H j Hj Nj). lra.
          - injection Hs as -> ->. rewrite (H j Hj Nj). exact B. }
        assert (Bs : (key start < key (f i))%R).
        { destruct H as [(_ & _ & H & _)|[Hs H]]; [lra|]. injection Hs as -> ->. exact B. }
        split; [exact Bs|]. split; [|exact A].
        intros j Hj Nj. destruct (Nat.eq_dec j i) as [->|Hne]; [lra|]. left. apply A; [lia|exact Nj].
      * assert (B' : ~ (key cur < key (f i))%R) by (intros G; apply (better_key _ _ Nf Nc) in G; congruence).
        cbn [fst snd]. split; [exact Nc|]. destruct H as [(H1 & H2 & H3 & H4 & H5)|[Hs H]].
        -- left. split; [lia|]. split; [exact H2|]. split; [exact H3|]. split; [|exact H5].
           intros j Hj Nj. destruct (Nat.eq_dec j i) as [->|Hne]; [lra|]. apply H4; [lia|exact Nj].
        -- right. injection Hs as -> ->. split; [reflexivity|]. intros j Hj Nj. destruct (Nat.eq_dec j i) as [->|Hne].
           ++ pose proof (start_least _ Nj). lra.
           ++ apply H; [lia|exact Nj].
    + rewrite better_nan by exact Nf. cbn [fst snd]. split; [exact Nc|]. destruct H as [(H1 & H2 & H3 & H4 & H5)|[Hs H]].
      * left. split; [lia|]. split; [exact H2|]. split; [exact H3|]. split; [|exact H5].
        intros j Hj Nj. destruct (Nat.eq_dec j i) as [->|Hne]; [congruence|]. apply H4; [lia|exact Nj].
      * right. split; [exact Hs|]. intros j Hj Nj. destruct (Nat.eq_dec j i) as [->|Hne]; [congruence|]. apply H; [lia|exact Nj].
  - exists k. rewrite E. cbn [obind fst snd] in *. split; [reflexivity|]. destruct H as [(H1 & H2 & H3 & H4 & H5)|[Hs H]].
    + left. subst cur. split; [exists k; auto|]. auto.
    + right. injection Hs as -> ->. auto.
Qed.

Lemma best_index_numbers : forall n value f, (forall i, i < n -> value i = Ok (f i) /\ number (f i) = true) -> 0 < n ->
  exists k, best_index better start n value = Ok k /\ k < n /\
    (forall i, i < n -> (key (f i) <= key (f k))%R) /\ (forall i, i < k -> (key (f i) < key (f k))%R).
Proof.
  intros n value f Hv Hn. destruct (best_index_spec n value f (fun i Hi => proj1 (Hv i Hi))) as (k & E & H).
  exists k. split; [exact E|]. destruct H as [(_ & H1 & H2 & H3 & H4)|[H ->]].
  - split; [exact H1|]. split.
    + intros i Hi. apply H3; [exact Hi|]. now apply Hv.
    + intros i Hi. apply H4; [exact Hi|]. apply Hv. lia.
  - split; [exact Hn|]. split; [|intros i Hi; lia]. intros i Hi.
    rewrite (H i Hi (proj2 (Hv i Hi))), (H 0 Hn (proj2 (Hv 0 Hn))). lra.
Qed.

Lemma best_indices_spec : forall n value f, (forall i, i < n -> value i = Ok (f i) /\ number (f i) = true) ->
  exists l, best_indices better start n value = Ok l /\ StronglySorted lt l /\
    forall i, In i l <-> i < n /\ forall j, j < n -> (key (f j) <= key (f i))%R.
Proof.
  intros n value f Hv. unfold best_indices.
  destruct (loop_inv (fun m (s : list nat * F) => number (snd s) = true /\ StronglySorted lt (fst s) /\
       (forall i, i < m -> (key (f i) <= key (snd s))%R) /\
       (forall i, In i (fst s) <-> i < m /\ key (f i) = key (snd s)) /\
       ((m = 0 /\ snd s = start) \/ fst s <> []))
     n (fun i '(result, current) =>
                      do v <- value i;
                      Ok (if better v current then ([i], v)
                          else if feq v current then (result ++ [i], current)
                          else (result, current))) ([], start))
    as ([l cur] & E & Nc & Hs & Hle & Hin & Hne).
  - cbn [fst snd]. split; [exact start_number|]. split; [constructor|]. split; [intros i Hi; lia|]. split; [|now left; split].
    intros i. split; [intros []|intros [Hi _]; lia].
  - intros i [l cur] Hi (Nc & Hs & Hle & Hin & Hne). cbn [fst snd] in *. destruct (Hv i Hi) as [Ev Nf]. rewrite Ev. cbn [obind].
    eexists. split; [reflexivity|]. destruct (better (f i) cur) eqn:B.
    + apply (better_key _ _ Nf Nc) in B. cbn [fst snd]. split; [exact Nf|]. split; [repeat constructor|]. split; [|split].
      * intros j Hj. destruct (Nat.eq_dec j i) as [->|Hn]; [lra|]. specialize (Hle j ltac:(lia)). lra.
      * intros j. split.
        -- intros [<-|[]]. split; [lia|reflexivity].
        -- intros [Hj Ek]. destruct (Nat.eq_dec j i) as [->|Hn]; [now left|]. specialize (Hle j ltac:(lia)). lra.
      * right. discriminate.
    + assert (B' : ~ (key cur < key (f i))%R) by (intros G; apply (better_key _ _ Nf Nc) in G; congruence).
      destruct (feq (f i) cur) eqn:Q.
      * apply (feq_key _ _ Nf Nc) in Q. cbn [fst snd]. split; [exact Nc|]. split; [|split; [|split]].
        -- assert (Hlt : forall x, In x l -> x < i) by (intros x Hx; apply Hin in Hx; lia). clear - Hs Hlt.
           induction Hs as [|a l Hs IH Ha]; cbn [app]; [repeat constructor|]. constructor.
           ++ apply IH. intros x Hx. apply Hlt. now right.
           ++ rewrite Forall_forall in *. intros x Hx. apply in_app_or in Hx as [Hx|[<-|[]]]; [now apply Ha|]. apply Hlt. now left.
        -- intros j Hj. destruct (Nat.eq_dec j i) as [->|Hn]; [lra|]. apply Hle. lia.
        -- intros j. rewrite in_app_iff, Hin. split.
           ++ intros [[Hj Ek]|[<-|[]]]; [split; [lia|exact Ek]|split; [lia|exact Q]].
           ++ intros [Hj Ek]. destruct (Nat.eq_dec j i) as [->|Hn]; [right; now left|]. left. split; [lia|exact Ek].
        -- right. destruct l; discriminate.
      * assert (Q' : key (f i) <> key cur) by (intros G; apply (feq_key _ _ Nf Nc) in G; congruence).
        cbn [fst snd]. split; [exact Nc|]. split; [exact Hs|]. split; [|split].
        -- intros j Hj. destruct (Nat.eq_dec j i) as [->|Hn]; [lra|]. apply Hle. lia.
        -- intros j. rewrite Hin. split; [intros [Hj Ek]; split; [lia|exact Ek]|]. intros [Hj Ek].
           destruct (Nat.eq_dec j i) as [->|Hn]; [now elim Q'|]. split; [lia|exact Ek].
        -- right. destruct Hne as [[-> ->]|Hne]; [|exact Hne]. pose proof (start_least _ Nf). lra.
  - exists l. rewrite E. cbn [obind fst snd] in *. split; [reflexivity|]. split; [exact Hs|]. intros i. rewrite Hin. split.
    + intros [Hi Ek]. split; [exact Hi|]. intros j Hj. rewrite Ek. now apply Hle.
    + intros [Hi Hb]. split; [exact Hi|]. destruct Hne as [[-> _]|Hne]; [lia|]. destruct l as [|a l]; [congruence|].
      destruct (proj1 (Hin a) (or_introl eq_refl)) as [Ha Ka]. specialize (Hb a Ha). specialize (Hle i Hi). lra.
Qed.
End Best.

(** ** The best k *)
Definition after (a b : nat * F) : Prop := (order (snd b) < order (snd a))%R \/ order (snd b) = order (snd a) /\ fst b < fst a.
Definition upto (a b : nat * F) : Prop := after b a.

Lemma insert_perm : forall x l, Permutation (x :: l) (insert x l).
Proof.
  intros x l. induction l as [|y l IH]; [apply Permutation_refl|]. cbn [insert]. destruct (before x y); [apply Permutation_refl|].
  eapply perm_trans; [apply perm_swap|]. now apply perm_skip.
Qed.
Lemma insert_sorted : forall x l, number (snd x) = true -> Forall (fun y => number (snd y) = true /\ fst y < fst x) l ->
  StronglySorted upto l -> StronglySorted upto (insert x l).
Proof.
  intros x l Nx. induction l as [|y l IH]; intros Hl Hs; [repeat constructor|]. cbn [insert].
  inversion Hl as [|? ? [Ny Hy] Hl']; subst. inversion Hs as [|? ? Hs' Hy']; subst.
  destruct (before x y) eqn:B.
  - apply (flt_order _ _ Nx Ny) in B. constructor; [exact Hs|]. constructor.
    + left. exact B.
    + rewrite Forall_forall in *. intros z Hz. specialize (Hy' z Hz). unfold upto, after in *. left. lra.
  - assert (B' : ~ (order (snd x) < order (snd y))%R) by (intros G; apply (flt_order _ _ Nx Ny) in G; unfold before in B; congruence).
    constructor; [now apply IH|]. rewrite Forall_forall. intros z Hz.
    apply (Permutation_in z (Permutation_sym (insert_perm x l))) in Hz. destruct Hz as [<-|Hz].
    + unfold upto, after. destruct (Rtotal_order (order (snd x)) (order (snd y))) as [G|[G|G]]; [lra|right; split; [lra|exact Hy]|left; lra].
    + rewrite Forall_forall in Hy'. now apply Hy'.
Qed.

Lemma sorted_rev : forall {B} (R : B -> B -> Prop) l, StronglySorted R l -> StronglySorted (fun a b => R b a) (rev l).
Proof.
  intros B R l H. induction H as [|a l Hs IH Ha]; cbn [rev]; [constructor|].
  rewrite Forall_forall in Ha. assert (Hin : forall x, In x (rev l) -> R a x) by (intros x Hx; apply Ha; now apply in_rev).
  clear - IH Hin. induction IH as [|b k Hs IH Hb]; cbn [app]; [repeat constructor|]. constructor.
  - apply IH. intros x Hx. apply Hin. now right.
  - rewrite Forall_forall in *. intros x Hx. apply in_app_or in Hx as [Hx|[<-|[]]]; [now apply Hb|]. apply Hin. now left.
Qed.

Lemma collect_firstn : forall k l result, length result < k -> collect k l result = result ++ firstn (k - length result) l.
Proof.
  intros k l. induction l as [|x l IH]; intros result H; cbn [collect].
  - now rewrite firstn_nil, app_nil_r.
  - rewrite app_length. cbn [length]. destruct (length result + 1 =? k) eqn:E.
    + apply Nat.eqb_eq in E. replace (k - length result) with 1 by lia. reflexivity.
    + apply Nat.eqb_neq in E. rewrite IH by (rewrite app_length; cbn; lia). rewrite app_length. cbn [length].
      replace (k - length result) with (S (k - (length result + 1))) by lia. cbn [firstn]. now rewrite <- app_assoc.
Qed.

Lemma sorted_app : forall {B} (R : B -> B -> Prop) l k, StronglySorted R (l ++ k) ->
  StronglySorted R l /\ forall x y, In x l -> In y k -> R x y.
Proof.
  intros B R l k. induction l as [|a l IH]; cbn [app]; intros H; [split; [constructor|intros x y []]|].
  inversion H as [|? ? Hs Ha]; subst. destruct (IH Hs) as [H1 H2]. rewrite Forall_forall in Ha. split.
  - constructor; [exact H1|]. rewrite Forall_forall. intros x Hx. apply Ha. apply in_or_app. now left.
  - intros x y [<-|Hx] Hy; [apply Ha; apply in_or_app; now right|now apply H2].
Qed.

Lemma sorted_columns : forall (t : tensor F) row channel f,
  (forall i, i < cols t -> get t row i channel = Ok (f i) /\ number (f i) = true) ->
  exists l, loop (cols t) 0 (fun col s =>
        do v <- get t row col channel;
        if is_nan 24 128 v then UB else Ok (insert (col, v) s)) [] = Ok l /\
    StronglySorted upto l /\ Permutation l (map (fun i => (i, f i)) (seq 0 (cols t))).
Proof.
  intros t row channel f Hf.
  destruct (loop_inv (fun m (l : list (nat * F)) => m <= cols t -> StronglySorted upto l /\ Permutation l (map (fun i => (i, f i)) (seq 0 m)))
    (cols t) (fun col s => do v <- get t row col channel; if is_nan 24 128 v then UB else Ok (insert (col, v) s)) []) as (l & E & H).
  - intros _. split; constructor.
  - intros i l Hi H. destruct (Hf i Hi) as [E N]. rewrite E. cbn [obind].
    pose proof (proj1 (number_no_nan (f i)) N) as Nn. unfold no_nan in Nn. rewrite Nn. eexists. split; [reflexivity|]. intros _.
    destruct (H ltac:(lia)) as [Hs Hp]. split.
    + apply insert_sorted; [exact N| |exact Hs]. rewrite Forall_forall. intros y Hy. apply (Permutation_in y Hp) in Hy.
      apply in_map_iff in Hy as (j & <- & Hj). apply in_seq in Hj. cbn [fst snd]. split; [apply Hf; lia|lia].
    + eapply perm_trans; [apply Permutation_sym, insert_perm|]. rewrite seq_S, map_app. cbn [map Nat.add].
      eapply perm_trans; [apply perm_skip; exact Hp|]. apply Permutation_cons_append.
  - exists l. split; [exact E|]. apply H. lia.
Qed.

(** ** Means *)
Local Open Scope R_scope.
Lemma running_mean : forall (g : R -> R) l,
  fold_left (fun '(a, i) v => let i := i + 1 in (a + (g v - a) / i, i)) l (0, 0) =
  (Scaling_Spec.average (map g l), INR (length l)).
Proof.
  intros g l. induction l as [|v l IH] using rev_ind.
  - cbn. unfold Scaling_Spec.average. cbn. f_equal. unfold Rdiv. ring.
  - rewrite fold_left_app, IH. cbn [fold_left]. unfold Scaling_Spec.average. rewrite map_app, !app_length, Scaling_Proofs.sum_app, !map_length.
    cbn [map length]. rewrite plus_INR. cbn [INR Scaling_Spec.sum fold_right]. pose proof (pos_INR (length l)).
    cbv zeta. apply f_equal2; [|reflexivity]. destruct l as [|w l].
    + cbn. replace (0 + 1) with 1 by ring. unfold Rdiv. rewrite !Rmult_0_l, !Rinv_1. ring.
    + field. split; [lra|]. apply not_0_INR. discriminate.
Qed.

Lemma fold_sum : forall (g : R -> R) l a, fold_left (fun s v => s + g v) l a = a + Scaling_Spec.sum (map g l).
Proof. intros g l. induction l as [|v l IH]; intros a; cbn; [ring|]. rewrite IH. unfold Scaling_Spec.sum. ring. Qed.

Lemma max_abs_spec : forall l cur, 0 <= cur ->
  let r := fold_left (fun result v => if Rgt_bool (Rabs v) result then Rabs v else result) l cur in
  cur <= r /\ (forall x, In x l -> Rabs x <= r) /\ (r = cur \/ exists x, In x l /\ r = Rabs x).
Proof.
  induction l as [|v l IH]; intros cur Hc; cbv zeta in *; cbn [fold_left].
  - split; [lra|]. split; [intros x []|now left].
  - assert (Es : (if Rgt_bool (Rabs v) cur then Rabs v else cur) = if Rlt_dec cur (Rabs v) then Rabs v else cur) by (unfold Rgt_bool; now destruct (Rlt_dec cur (Rabs v))).
    rewrite Es. destruct (Rlt_dec cur (Rabs v)) as [G|G].
    + destruct (IH (Rabs v) (Rabs_pos v)) as (H1 & H2 & H3). split; [lra|]. split.
      * intros x [<-|Hx]; [exact H1|now apply H2].
      * right. destruct H3 as [->|(x & Hx & E)]; [exists v; split; [now left|reflexivity]|exists x; split; [now right|exact E]].
    + destruct (IH cur Hc) as (H1 & H2 & H3). split; [lra|]. split.
      * intros x [<-|Hx]; [lra|now apply H2].
      * destruct H3 as [->|(x & Hx & E)]; [now left|right; exists x; split; [now right|exact E]].
Qed.
