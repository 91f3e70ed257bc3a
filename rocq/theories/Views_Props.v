(** C39: layout views move elements, nothing else.  C43: conditional selection. *)
From Coq Require Import List Arith Bool Lia ZArith.
From Verif Require Import Outcome Tensor_Model Tensor_Spec Views_Proofs.
Import ListNotations.

Section Props.
Context {A : Type} (o : ops A).
Notation T := (tensor A).

Theorem transpose_twice : forall t : T,
  (forall r c k, get (transpose t) r c k = get t c r k) /\
  rows (transpose t) = cols t /\ cols (transpose t) = rows t /\
  same (transpose (transpose t)) t.
Proof. intros t. unfold same. cbn. auto 10. Qed.

Theorem rotate_twice : forall t : T,
  (forall r c k, in_range t r c k -> get (rotate180 t) r c k = get t (rows t - 1 - r) (cols t - 1 - c) k) /\
  same (rotate180 (rotate180 t)) t.
Proof.
  intros t. assert (H : forall r c k, in_range t r c k -> get (rotate180 t) r c k = get t (rows t - 1 - r) (cols t - 1 - c) k).
  { intros r c k (Hr & Hc & Hk). cbn [get rotate180]. now rewrite (wsub_le (rows t) 1), (wsub_le (cols t) 1), !wsub_le by lia. }
  split; [exact H|]. unfold same. repeat split; try reflexivity.
  intros r c k (Hr & Hc & Hk). cbn [rotate180 rows cols chans] in *.
  cbn [get rotate180 rows cols]. rewrite (wsub_le (rows t) 1), (wsub_le (cols t) 1) by lia.
  rewrite (wsub_le (rows t - 1) r), (wsub_le (cols t - 1) c) by lia. rewrite !wsub_le by lia. f_equal; lia.
Qed.

(** Reshaping is accepted exactly when the number of elements per channel is kept; then the
    elements keep their row by row order, and reshaping back gives the tensor itself. *)
Theorem reshape_keeps_order : forall (t : T) r' c',
  (rows t * cols t <> r' * c' -> reshape t r' c' = Throw) /\
  (rows t * cols t = r' * c' -> exists u, reshape t r' c' = Ok u /\
     rows u = r' /\ cols u = c' /\ chans u = chans t /\
     (forall r c i j k, in_range t r c k -> in_range u i j k ->
        r * cols t + c = i * c' + j -> get u i j k = get t r c k) /\
     exists v, reshape u (rows t) (cols t) = Ok v /\ same v t).
Proof.
  intros t r' c'. split.
  - intros H. unfold reshape, elementsPerChannel. apply Nat.eqb_neq in H. now rewrite H.
  - intros H. unfold reshape, elementsPerChannel. rewrite H, Nat.eqb_refl.
    eexists. split; [reflexivity|]. cbn [rows cols chans reshaped]. split; [reflexivity|]. split; [reflexivity|].
    split; [reflexivity|]. split.
    + intros r c i j k (Hr & Hc & Hk) _ E. cbn [get reshaped]. rewrite <- E, <- H. now rewrite flat_pos.
    + rewrite Nat.eqb_refl. eexists. split; [reflexivity|]. unfold same. cbn [rows cols chans reshaped].
      repeat split; try reflexivity. intros r c k (Hr & Hc & Hk). cbn [rows cols chans reshaped] in *.
      change (flat (reshaped t r' c') (r * cols t + c + k * (rows t * cols t)) = get t r c k).
      rewrite flat_reshaped by nia. now apply flat_pos.
Qed.

(** Element (r, c) of channel k is at place k * rows * cols + r * cols + c of the flattened tensor. *)
Theorem flatten_places : forall t : T,
  rows (row_flatten t) = 1 /\ cols (row_flatten t) = rows t * cols t * chans t /\ chans (row_flatten t) = 1 /\
  rows (column_flatten t) = rows t * cols t * chans t /\ cols (column_flatten t) = 1 /\ chans (column_flatten t) = 1 /\
  forall r c k, in_range t r c k ->
    let place := k * (rows t * cols t) + r * cols t + c in
    place < rows t * cols t * chans t /\
    get (row_flatten t) 0 place 0 = get t r c k /\ get (column_flatten t) place 0 0 = get t r c k.
Proof.
  intros t. do 6 (split; [reflexivity|]). intros r c k (Hr & Hc & Hk) place.
  assert (E : place = r * cols t + c + k * (rows t * cols t)) by (unfold place; lia).
  split.
  { assert (r * cols t + c < rows t * cols t) by nia.
    pose proof (Nat.mul_le_mono_r (k + 1) (chans t) (rows t * cols t) ltac:(lia)). unfold place. lia. }
  cbn [get row_flatten column_flatten Nat.eqb andb]. rewrite E. now rewrite !flat_pos.
Qed.

(** Flattening and reshaping back is the identity for a tensor with one channel. *)
(** Partial, C39: one channel; with several it is refuted. *)
Theorem flatten_then_reshape_partial : forall t : T, chans t = 1 ->
  (exists u, reshape (row_flatten t) (rows t) (cols t) = Ok u /\ same u t) /\
  (exists u, reshape (column_flatten t) (rows t) (cols t) = Ok u /\ same u t).
Proof.
  intros t Hk. destruct (flatten_places t) as (_ & _ & _ & _ & _ & _ & P).
  split; unfold reshape, elementsPerChannel.
  - replace (rows (row_flatten t) * cols (row_flatten t) =? rows t * cols t) with true
      by (symmetry; apply Nat.eqb_eq; cbn [row_flatten rows cols]; unfold size; rewrite Hk; lia).
    eexists. split; [reflexivity|]. unfold same. cbn [rows cols chans reshaped]. repeat split; try reflexivity; [now rewrite Hk|].
    intros r c k (Hr & Hc & Hk'). cbn [rows cols chans reshaped row_flatten] in Hr, Hc, Hk'. assert (k = 0) as -> by lia.
    destruct (P r c 0) as (Hp & Hrf & Hcf); [unfold in_range; lia|].
    rewrite <- Hrf. cbn [get reshaped].
    rewrite <- (flat_pos (row_flatten t) 0 _ 0); [f_equal; cbn [row_flatten rows cols]; lia|cbn [row_flatten rows]; lia|].
    cbn [row_flatten cols]. unfold size. exact Hp.
  - replace (rows (column_flatten t) * cols (column_flatten t) =? rows t * cols t) with true
      by (symmetry; apply Nat.eqb_eq; cbn [column_flatten rows cols]; unfold size; rewrite Hk; lia).
    eexists. split; [reflexivity|]. unfold same. cbn [rows cols chans reshaped]. repeat split; try reflexivity; [now rewrite Hk|].
    intros r c k (Hr & Hc & Hk'). cbn [rows cols chans reshaped column_flatten] in Hr, Hc, Hk'. assert (k = 0) as -> by lia.
    destruct (P r c 0) as (Hp & Hrf & Hcf); [unfold in_range; lia|].
    rewrite <- Hcf. cbn [get reshaped].
    rewrite <- (flat_pos (column_flatten t) _ 0 0); [f_equal; cbn [column_flatten rows cols]; lia| |cbn [column_flatten cols]; lia].
    cbn [column_flatten rows]. unfold size. exact Hp.
Qed.

(** With several channels a flattened tensor cannot be reshaped back: it is refused. *)
Theorem flatten_then_reshape_channels_refuted : forall t : T, 2 <= chans t -> rows t * cols t <> 0 ->
  reshape (row_flatten t) (rows t) (cols t) = Throw /\ reshape (column_flatten t) (rows t) (cols t) = Throw.
Proof.
  intros t Hk Hn. unfold reshape, elementsPerChannel, row_flatten, column_flatten, size. cbn [rows cols].
  split; [replace (1 * (rows t * cols t * chans t) =? rows t * cols t) with false by (symmetry; apply Nat.eqb_neq; nia)
         |replace (rows t * cols t * chans t * 1 =? rows t * cols t) with false by (symmetry; apply Nat.eqb_neq; nia)]; reflexivity.
Qed.

(** The two windows of a concatenation are its parts. *)
Theorem windows_of_concat : forall a b : T, rows a = rows b -> chans a = chans b -> 0 < cols a -> 0 < cols b ->
  exists u, concat_wide a b = Ok u /\ cols u = cols a + cols b /\
  (exists l, window u 0 (cols a) = Ok l /\ same l a) /\
  (exists r, window u (cols a) (cols a + cols b) = Ok r /\ same r b).
Proof.
  intros a b Hr Hk Ha Hb. unfold concat_wide. apply Nat.eqb_eq in Hr as Hb'. rewrite Hb'.
  eexists. split; [reflexivity|]. split; [reflexivity|]. unfold window. cbn [cols rows chans].
  split.
  - replace (cols a <=? 0) with false by (symmetry; apply Nat.leb_gt; lia).
    replace (cols a + cols b <? cols a) with false by (symmetry; apply Nat.ltb_ge; lia). cbn [orb].
    eexists. split; [reflexivity|]. unfold same. cbn [rows cols chans]. rewrite Nat.sub_0_r. repeat split; try reflexivity.
    intros r c k (_ & Hc & _). cbn [cols] in Hc. cbn [get].
    replace (cols a <=? c) with false by (symmetry; apply Nat.leb_gt; lia).
    rewrite Nat.add_0_r. replace (c <? cols a) with true by (symmetry; apply Nat.ltb_lt; lia). reflexivity.
  - replace (cols a + cols b <=? cols a) with false by (symmetry; apply Nat.leb_gt; lia).
    rewrite Nat.ltb_irrefl. cbn [orb].
    eexists. split; [reflexivity|]. unfold same. cbn [rows cols chans].
    replace (cols a + cols b - cols a) with (cols b) by lia. repeat split; auto.
    intros r c k (_ & Hc & _). cbn [cols] in Hc. cbn [get].
    replace (cols b <=? c) with false by (symmetry; apply Nat.leb_gt; lia).
    replace (c + cols a <? cols a) with false by (symmetry; apply Nat.ltb_ge; lia).
    f_equal; lia.
Qed.

(** Cutting a tensor in two windows and concatenating them gives it back. *)
Theorem concat_of_windows : forall (t : T) m, 0 < m < cols t ->
  exists l r u, window t 0 m = Ok l /\ window t m (cols t) = Ok r /\ concat_wide l r = Ok u /\ same u t.
Proof.
  intros t m Hm. unfold window.
  replace (m <=? 0) with false by (symmetry; apply Nat.leb_gt; lia).
  replace (cols t <? m) with false by (symmetry; apply Nat.ltb_ge; lia).
  replace (cols t <=? m) with false by (symmetry; apply Nat.leb_gt; lia).
  rewrite Nat.ltb_irrefl. cbn [orb]. eexists. eexists. eexists. split; [reflexivity|]. split; [reflexivity|].
  unfold concat_wide. cbn [rows cols chans]. rewrite Nat.eqb_refl. split; [reflexivity|].
  unfold same. cbn [rows cols chans]. repeat split; try reflexivity; [lia|].
  intros r c k (_ & Hc & _). cbn [cols] in Hc. cbn [get].
  destruct (c <? m - 0) eqn:E; [apply Nat.ltb_lt in E|apply Nat.ltb_ge in E].
  - replace (m - 0 <=? c) with false by (symmetry; apply Nat.leb_gt; lia). f_equal; lia.
  - replace (cols t - m <=? c - (m - 0)) with false by (symmetry; apply Nat.leb_gt; lia). f_equal; lia.
Qed.

(** A window is accepted exactly for a non-empty range of existing columns. *)
Theorem window_accepts : forall (t : T) s e,
  (s < e <= cols t -> exists u, window t s e = Ok u /\ rows u = rows t /\ cols u = e - s /\ chans u = chans t /\
     forall r c k, c < e - s -> get u r c k = get t r (s + c) k) /\
  (~ s < e <= cols t -> window t s e = Throw).
Proof.
  intros t s e. unfold window. split.
  - intros H. replace (e <=? s) with false by (symmetry; apply Nat.leb_gt; lia).
    replace (cols t <? e) with false by (symmetry; apply Nat.ltb_ge; lia). cbn [orb].
    eexists. split; [reflexivity|]. cbn [rows cols chans get]. repeat split; try reflexivity.
    intros r c k Hc. replace (e - s <=? c) with false by (symmetry; apply Nat.leb_gt; lia). f_equal; lia.
  - intros H. destruct (e <=? s) eqn:E1; [reflexivity|]. destruct (cols t <? e) eqn:E2; [reflexivity|].
    apply Nat.leb_gt in E1. apply Nat.ltb_ge in E2. lia.
Qed.

(** The channel view is the chosen channel. *)
Theorem channel_view : forall (t : T) n,
  rows (channel_to o t n) = rows t /\ cols (channel_to o t n) = cols t /\ chans (channel_to o t n) = 1 /\
  forall r c, get (channel_to o t n) r c 0 = get t r c n.
Proof. intros t n. repeat split; reflexivity. Qed.

(** Padding puts the tensor at offset (top, left) and zeros everywhere else. *)
Theorem zero_pad_frames : forall (t : T) top bottom left right,
  rows (zero_pad o t top bottom left right) = top + rows t + bottom /\
  cols (zero_pad o t top bottom left right) = left + cols t + right /\
  chans (zero_pad o t top bottom left right) = chans t /\
  (forall r c k, r < rows t -> c < cols t ->
     get (zero_pad o t top bottom left right) (top + r) (left + c) k = get t r c k) /\
  (forall i j k, i < top \/ top + rows t <= i \/ j < left \/ left + cols t <= j ->
     get (zero_pad o t top bottom left right) i j k = Ok (zero o)).
Proof.
  intros t a b c d. cbn [rows cols chans zero_pad]. split; [lia|]. split; [lia|]. split; [reflexivity|]. split.
  - intros. now apply zero_pad_inner.
  - intros. now apply zero_pad_outer.
Qed.

(** Copying a tensor into memory keeps every element and refuses every position outside. *)
Theorem materialize_copies : forall t : T, readable t ->
  exists u, materialize t = Ok u /\ same u t /\ forall r c k, ~ in_range t r c k -> get u r c k = Throw.
Proof. exact materialize_ok. Qed.

(** No view over a readable tensor reads outside it: every position of the view can be read.
    (Two tensors side by side need equally many channels, and a channel view an existing channel:
    neither is checked, see [unchecked_channels_refuted].) *)
Theorem views_stay_inside : forall t : T, readable t ->
  readable (transpose t) /\ readable (rotate180 t) /\ readable (row_flatten t) /\ readable (column_flatten t) /\
  (forall r c u, reshape t r c = Ok u -> readable u) /\
  (forall s e u, window t s e = Ok u -> readable u) /\
  (forall b u, readable b -> chans b = chans t -> concat_wide t b = Ok u -> readable u) /\
  (forall n, n < chans t -> readable (channel_to o t n)) /\
  (forall x y z w, readable (zero_pad o t x y z w)) /\
  readable (diagonal o t) /\
  (forall n m, readable (sum_to_channel o t n m)).
Proof.
  intros t Ht. split; [|split; [|split; [|split; [|split; [|split; [|split; [|split; [|split; [|split]]]]]]]]].
  - intros r c k (Hr & Hc & Hk). cbn [transpose rows cols chans] in *. apply Ht. unfold in_range. auto.
  - intros r c k (Hr & Hc & Hk). cbn [rotate180 rows cols chans] in *. cbn [get rotate180].
    rewrite (wsub_le (rows t) 1), (wsub_le (cols t) 1), !wsub_le by lia. apply Ht. unfold in_range. lia.
  - intros r c k (Hr & Hc & Hk). cbn [row_flatten rows cols chans] in *. assert (r = 0) as -> by lia. assert (k = 0) as -> by lia.
    cbn [get row_flatten Nat.eqb andb]. now apply flat_readable.
  - intros r c k (Hr & Hc & Hk). cbn [column_flatten rows cols chans] in *. assert (c = 0) as -> by lia. assert (k = 0) as -> by lia.
    cbn [get column_flatten Nat.eqb andb]. now apply flat_readable.
  - intros r c u. unfold reshape, elementsPerChannel. destruct (_ =? _) eqn:E; [|discriminate]. intros [= <-].
    apply Nat.eqb_eq in E. intros i j k (Hr & Hc & Hk). cbn [reshaped rows cols chans] in *. cbn [get reshaped].
    apply flat_readable; [exact Ht|]. unfold size. rewrite E.
    assert (i * c + j < r * c) by nia. pose proof (Nat.mul_le_mono_r (k + 1) (chans t) (r * c) ltac:(lia)). lia.
  - intros s e u. unfold window. destruct (_ || _) eqn:E; [discriminate|]. intros [= <-].
    apply orb_false_iff in E. destruct E as [E1 E2]. apply Nat.leb_gt in E1. apply Nat.ltb_ge in E2.
    intros i j k (Hr & Hc & Hk). cbn [rows cols chans] in *. cbn [get].
    replace (e - s <=? j) with false by (symmetry; apply Nat.leb_gt; lia). apply Ht. unfold in_range. lia.
  - intros b u Hb Hch. unfold concat_wide. destruct (_ =? _) eqn:E; [|discriminate]. intros [= <-].
    apply Nat.eqb_eq in E. intros i j k (Hr & Hc & Hk). cbn [rows cols chans] in *. cbn [get].
    destruct (j <? cols t) eqn:Ej; [apply Nat.ltb_lt in Ej; apply Ht|apply Nat.ltb_ge in Ej; apply Hb]; unfold in_range; lia.
  - intros n Hn i j k (Hr & Hc & Hk). cbn [channel_to rows cols chans] in *. assert (k = 0) as -> by lia.
    cbn [get channel_to Nat.eqb Nat.add]. apply Ht. unfold in_range. lia.
  - intros x y z w i j k (Hr & Hc & Hk). cbn [zero_pad rows cols chans] in *.
    destruct (le_lt_dec x i) as [Hi|Hi]; [|exists (zero o); apply zero_pad_outer; lia].
    destruct (le_lt_dec z j) as [Hj|Hj]; [|exists (zero o); apply zero_pad_outer; lia].
    destruct (le_lt_dec (x + rows t) i) as [Hi'|Hi']; [exists (zero o); apply zero_pad_outer; lia|].
    destruct (le_lt_dec (z + cols t) j) as [Hj'|Hj']; [exists (zero o); apply zero_pad_outer; lia|].
    replace i with (x + (i - x)) by lia. replace j with (z + (j - z)) by lia.
    rewrite zero_pad_inner by lia. apply Ht. unfold in_range. lia.
  - intros i j k _. cbn [get diagonal]. destruct (_ && _) eqn:E; [|eauto].
    rewrite !andb_true_iff in E. destruct E as (((E0 & E1) & E2) & E3).
    apply Nat.ltb_lt in E1, E2, E3. apply Ht. unfold in_range. auto.
  - intros n m i j k (Hr & Hc & Hk). cbn [sum_to_channel rows cols chans] in *. cbn [get sum_to_channel].
    destruct (k =? n); [|eauto]. apply loop_ok. intros l s Hl. destruct (Ht i j l) as [v ->]; [unfold in_range; lia|].
    cbn [obind]. eauto.
Qed.

(** [getRowValues] always reads channel 0, whatever channel is asked for. *)
Theorem row_values_channel_refuted : exists (t : tensor Z) r c k v,
  readable t /\ in_range t r c k /\ getRowValues t r k = Ok v /\ nth_error v c <> match get t r c k with Ok x => Some x | _ => None end.
Proof.
  exists {| rows := 1; cols := 1; chans := 2; get := fun _ _ k => Ok (Z.of_nat k) |}, 0, 0, 1, [0%Z].
  split; [intros r c k _; cbn; eauto|]. split; [unfold in_range; cbn; lia|]. split; [reflexivity|]. cbn. discriminate.
Qed.

(** Concatenating tensors with different channel counts, or viewing a channel that does not exist,
    is accepted and then fails when read. *)
Theorem unchecked_channels_refuted :
  (exists a b u : tensor A, readable a /\ readable b /\ concat_wide a b = Ok u /\ ~ readable u) /\
  (exists t : tensor A, readable t /\ ~ readable (channel_to o t 1)).
Proof.
  set (a := {| rows := 1; cols := 1; chans := 2; get := fun _ _ _ => Ok (zero o) |} : T).
  set (b := {| rows := 1; cols := 1; chans := 1; get := fun _ _ k => if k =? 0 then Ok (zero o) else Throw |} : T).
  assert (Ha : readable a) by (intros r c k _; cbn; eauto).
  assert (Hb : readable b). { intros r c k (_ & _ & Hk). cbn in Hk. assert (k = 0) as -> by lia. cbn; eauto. }
  split.
  - exists a, b. eexists. split; [exact Ha|]. split; [exact Hb|]. split; [reflexivity|].
    intros H. destruct (H 0 1 1) as [v E]; [unfold in_range; cbn; lia|]. discriminate.
  - exists b. split; [exact Hb|]. intros H. destruct (H 0 0 0) as [v E]; [unfold in_range; cbn; lia|]. discriminate.
Qed.

(** The diagonal view of a vector keeps only its first element. *)
Theorem diagonal_of_vector_refuted : forall t : T, rows t = 1 -> forall i j k, 0 < i ->
  get (diagonal o t) i j k = Ok (zero o).
Proof.
  intros t H i j k Hi. cbn [get diagonal]. rewrite H.
  replace (i <? 1) with false by (symmetry; apply Nat.ltb_ge; lia). now rewrite andb_false_r.
Qed.

(** C43, as it should be: this is what holds where the mask is above the discriminator ... *)
(** Partial, C43: only where the condition holds; elsewhere it is refuted. *)
Theorem masked_select_above_partial : forall (mask above below : T) d r c k v,
  get mask r c k = Ok v -> gtb o v d = true ->
  get (masked_select o mask above below d) r c k = get above r c k.
Proof. intros mask above below d r c k v E G. cbn. rewrite E. cbn. now rewrite G. Qed.

(** ... but the third tensor is never looked at: the second one is used elsewhere as well. *)
Theorem masked_select_below_refuted : forall (mask above below : T) d r c k v,
  get mask r c k = Ok v -> gtb o v d = false ->
  get (masked_select o mask above below d) r c k = get above r c k.
Proof. intros mask above below d r c k v E G. cbn. rewrite E. cbn. now rewrite G. Qed.
End Props.

(** A mask, two tensors and a position where selection gives the wrong element. *)
Theorem masked_select_refuted : exists (mask above below : tensor Z) r c k,
  in_range mask r c k /\ get mask r c k = Ok 0%Z /\
  get (masked_select zops mask above below 0%Z) r c k <> get below r c k.
Proof.
  exists (uniform 1 1 1 0%Z), (uniform 1 1 1 1%Z), (uniform 1 1 1 2%Z), 0, 0, 0.
  split; [unfold in_range; cbn; lia|]. split; [reflexivity|]. discriminate.
Qed.

(** A 2 x 3 tensor with two channels, all values different. *)
Definition ex : tensor Z := {| rows := 2; cols := 3; chans := 2;
  get := fun r c k => if (r <? 2) && (c <? 3) && (k <? 2) then Ok (Z.of_nat (100 * k + 10 * r + c)) else Throw |}.
Example ex_readable : readable ex.
Proof.
  intros r c k (Hr & Hc & Hk). cbn [ex rows cols chans] in *. cbn [get ex].
  apply Nat.ltb_lt in Hr, Hc, Hk. rewrite Hr, Hc, Hk. cbn. eauto.
Qed.
Example ex_rotated : get (rotate180 ex) 0 0 1 = Ok 112%Z. Proof. reflexivity. Qed.
Example ex_flat : get (row_flatten ex) 0 7 0 = Ok 101%Z. Proof. reflexivity. Qed.
Example ex_reshape : match reshape ex 3 2 with Ok u => get u 1 1 1 | _ => UB end = Ok 110%Z. Proof. reflexivity. Qed.
Example ex_window : match concat_wide ex ex with
  | Ok u => match window u 2 5 with Ok w => get w 1 1 0 | _ => UB end | _ => UB end = Ok 10%Z. Proof. reflexivity. Qed.
Example ex_pad : get (zero_pad zops ex 1 1 2 2) 2 3 1 = Ok 111%Z. Proof. reflexivity. Qed.
Example ex_masked : get (masked_select zops ex (uniform 2 3 2 1%Z) (uniform 2 3 2 2%Z) 50%Z) 0 0 1 = Ok 1%Z. Proof. reflexivity. Qed.

Print Assumptions transpose_twice. Print Assumptions rotate_twice. Print Assumptions reshape_keeps_order.
Print Assumptions flatten_places. Print Assumptions flatten_then_reshape_partial.
Print Assumptions flatten_then_reshape_channels_refuted. Print Assumptions windows_of_concat.
Print Assumptions concat_of_windows. Print Assumptions window_accepts. Print Assumptions channel_view.
Print Assumptions zero_pad_frames. Print Assumptions materialize_copies. Print Assumptions views_stay_inside.
Print Assumptions row_values_channel_refuted. Print Assumptions unchecked_channels_refuted.
Print Assumptions diagonal_of_vector_refuted. Print Assumptions masked_select_above_partial.
Print Assumptions masked_select_below_refuted. Print Assumptions masked_select_refuted.
