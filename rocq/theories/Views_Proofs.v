(** Proofs about the layout views. *)
From Coq Require Import List Arith Bool Lia.
From Verif Require Import Outcome Tensor_Model Tensor_Spec.
Import ListNotations.

Lemma wsub_le : forall a b, b <= a -> wsub a b = a - b.
Proof. intros a b H. unfold wsub. apply Nat.leb_le in H. now rewrite H. Qed.

Lemma omapM_get : forall {B C} (f : B -> outcome C) l,
  (forall x, In x l -> exists v, f x = Ok v) ->
  exists l', omapM f l = Ok l' /\ length l' = length l /\
             forall i x, nth_error l i = Some x -> exists v, f x = Ok v /\ nth_error l' i = Some v.
Proof.
  intros B C f l. induction l as [|x l IH]; intros H.
  - exists []. split; [reflexivity|]. split; [reflexivity|]. now intros [|i] x E.
  - destruct (H x (or_introl eq_refl)) as [v Ev].
    destruct IH as (l' & El & Ll & Hl). { intros y Hy. apply H. now right. }
    exists (v :: l'). cbn [omapM obind]. rewrite Ev. cbn [obind]. rewrite El. cbn [obind].
    split; [reflexivity|]. split; [cbn; now rewrite Ll|].
    intros [|i] y E; cbn in E |- *. + injection E as <-. eauto. + eauto.
Qed.

Section V.
Context {A : Type} (o : ops A).
Notation T := (tensor A).

Lemma flat_pos : forall (t : T) r c k, r < rows t -> c < cols t ->
  flat t (r * cols t + c + k * (rows t * cols t)) = get t r c k.
Proof.
  intros t r c k Hr Hc. unfold flat.
  assert (Hm : cols t * rows t <> 0) by nia.
  apply Nat.eqb_neq in Hm as Hb. rewrite Hb. cbv zeta.
  replace (rows t * cols t) with (cols t * rows t) by lia.
  assert (Hlt : r * cols t + c < cols t * rows t) by nia.
  rewrite Nat.mod_add by exact Hm. rewrite Nat.div_add by exact Hm.
  rewrite (Nat.mod_small _ _ Hlt), (Nat.div_small _ _ Hlt). rewrite (Nat.add_comm _ c).
  rewrite Nat.div_add, Nat.mod_add by lia.
  now rewrite Nat.mod_small, Nat.div_small by lia.
Qed.

Lemma flat_split : forall (t : T) off, off < size t -> exists r c k, in_range t r c k /\
  off = r * cols t + c + k * (rows t * cols t).
Proof.
  intros t off H. unfold size in H.
  set (m := rows t * cols t) in *.
  assert (Hm : m <> 0) by nia. assert (Hc : cols t <> 0) by (intros E; apply Hm; unfold m; rewrite E; apply Nat.mul_0_r).
  exists (off mod m / cols t), ((off mod m) mod cols t), (off / m).
  pose proof (Nat.div_mod off m Hm) as D. pose proof (Nat.mod_upper_bound off m Hm) as U.
  pose proof (Nat.div_mod (off mod m) (cols t) Hc) as D2. pose proof (Nat.mod_upper_bound (off mod m) (cols t) Hc) as U2.
  split. 2: { rewrite (Nat.mul_comm (off / m) m), (Nat.mul_comm (off mod m / cols t) (cols t)). rewrite <- D2, Nat.add_comm. exact D. }
  unfold in_range. repeat split.
  - apply Nat.div_lt_upper_bound; [exact Hc|]. rewrite Nat.mul_comm. exact U.
  - exact U2.
  - apply Nat.div_lt_upper_bound; [exact Hm|]. exact H.
Qed.

Lemma flat_readable : forall (t : T) off, readable t -> off < size t -> exists v, flat t off = Ok v.
Proof.
  intros t off Ht H. destruct (flat_split t off H) as (r & c & k & Hr & ->).
  rewrite flat_pos by apply Hr. apply Ht. exact Hr.
Qed.

Lemma flat_reshaped : forall (t : T) r c off, r * c = rows t * cols t -> r * c <> 0 ->
  flat (reshaped t r c) off = flat t off.
Proof.
  intros t r c off E Hnz. unfold flat at 1. cbn [cols rows reshaped get].
  assert (Hb : (c * r =? 0) = false) by (apply Nat.eqb_neq; lia). rewrite Hb. cbv zeta.
  assert (Hc : c <> 0) by (intros ->; lia).
  replace (c * r) with (r * c) by lia.
  pose proof (Nat.div_mod off (r * c) Hnz) as D.
  pose proof (Nat.div_mod (off mod (r * c)) c Hc) as D2.
  f_equal. lia.
Qed.

Lemma zero_pad_inner : forall (t : T) a b c d i j k, i < rows t -> j < cols t ->
  get (zero_pad o t a b c d) (a + i) (c + j) k = get t i j k.
Proof.
  intros t a b c d i j k Hi Hj. cbn [get zero_pad].
  rewrite !wsub_le by lia. replace (a + i - a) with i by lia. replace (c + j - c) with j by lia.
  replace (a + i <? a) with false by (symmetry; apply Nat.ltb_ge; lia).
  replace (c + j <? c) with false by (symmetry; apply Nat.ltb_ge; lia).
  replace (rows t <=? i) with false by (symmetry; apply Nat.leb_gt; lia).
  now replace (cols t <=? j) with false by (symmetry; apply Nat.leb_gt; lia).
Qed.

Lemma zero_pad_outer : forall (t : T) a b c d i j k,
  i < a \/ a + rows t <= i \/ j < c \/ c + cols t <= j ->
  get (zero_pad o t a b c d) i j k = Ok (zero o).
Proof.
  intros t a b c d i j k H. cbn [get zero_pad].
  destruct (i <? a) eqn:E1; [reflexivity|]. apply Nat.ltb_ge in E1.
  rewrite (wsub_le i a) by lia.
  destruct (rows t <=? i - a) eqn:E2; [reflexivity|]. apply Nat.leb_gt in E2.
  destruct (j <? c) eqn:E3; [reflexivity|]. apply Nat.ltb_ge in E3.
  rewrite (wsub_le j c) by lia.
  destruct (cols t <=? j - c) eqn:E4; [reflexivity|]. apply Nat.leb_gt in E4. lia.
Qed.

Lemma loop_ok : forall {St} n i body (s : St), (forall j s, i <= j < i + n -> exists s', body j s = Ok s') ->
  exists s', loop n i body s = Ok s'.
Proof.
  intros St n. induction n as [|n IH]; intros i body s H; [now exists s|].
  cbn [loop]. destruct (H i s ltac:(lia)) as [s' E]. rewrite E. cbn [obind].
  apply IH. intros j s0 Hj. apply H. lia.
Qed.

Lemma materialize_ok : forall (t : T), readable t -> exists u, materialize t = Ok u /\ same u t /\
  forall r c k, ~ in_range t r c k -> get u r c k = Throw.
Proof.
  intros t Ht. unfold materialize.
  assert (Hrow : forall k i, k < chans t -> i < rows t -> exists l,
     omapM (fun j => get t i j k) (seq 0 (cols t)) = Ok l /\ length l = cols t /\
     forall j, j < cols t -> exists v, get t i j k = Ok v /\ nth_error l j = Some v).
  { intros k i Hk Hi. destruct (omapM_get (fun j => get t i j k) (seq 0 (cols t))) as (l & El & Ll & Hl).
    - intros j Hj. apply in_seq in Hj. apply Ht. unfold in_range. lia.
    - exists l. split; [exact El|]. split; [now rewrite Ll, seq_length|].
      intros j Hj. apply (Hl j j). rewrite nth_error_nth' with (d := 0) by (rewrite seq_length; lia).
      now rewrite seq_nth by lia. }
  assert (Hmat : forall k, k < chans t -> exists m,
     omapM (fun i => omapM (fun j => get t i j k) (seq 0 (cols t))) (seq 0 (rows t)) = Ok m /\ length m = rows t /\
     forall i, i < rows t -> exists l, nth_error m i = Some l /\ length l = cols t /\
     forall j, j < cols t -> exists v, get t i j k = Ok v /\ nth_error l j = Some v).
  { intros k Hk. destruct (omapM_get (fun i => omapM (fun j => get t i j k) (seq 0 (cols t))) (seq 0 (rows t))) as (m & Em & Lm & Hm).
    - intros i Hi. apply in_seq in Hi. destruct (Hrow k i Hk ltac:(lia)) as (l & El & _). eauto.
    - exists m. split; [exact Em|]. split; [now rewrite Lm, seq_length|].
      intros i Hi. destruct (Hm i i) as (l & El & Nl).
      { rewrite nth_error_nth' with (d := 0) by (rewrite seq_length; lia). now rewrite seq_nth by lia. }
      exists l. split; [exact Nl|]. destruct (Hrow k i Hk Hi) as (l' & El' & Hl'). rewrite El in El'. injection El' as <-. exact Hl'. }
  destruct (omapM_get (fun k => omapM (fun i => omapM (fun j => get t i j k) (seq 0 (cols t))) (seq 0 (rows t))) (seq 0 (chans t))) as (d & Ed & Ld & Hd).
  { intros k Hk. apply in_seq in Hk. destruct (Hmat k ltac:(lia)) as (m & Em & _). eauto. }
  rewrite Ed. cbn [obind]. eexists. split; [reflexivity|].
  assert (Hk : forall k, k < chans t -> exists m, nth_error d k = Some m /\ length m = rows t /\
     forall i, i < rows t -> exists l, nth_error m i = Some l /\ length l = cols t /\
     forall j, j < cols t -> exists v, get t i j k = Ok v /\ nth_error l j = Some v).
  { intros k Hk. destruct (Hd k k) as (m & Em & Nm).
    { rewrite nth_error_nth' with (d := 0) by (rewrite seq_length; lia). now rewrite seq_nth by lia. }
    exists m. split; [exact Nm|]. destruct (Hmat k Hk) as (m' & Em' & Hm'). rewrite Em in Em'. injection Em' as <-. exact Hm'. }
  rewrite seq_length in Ld.
  split.
  - unfold same. cbn [rows cols chans get]. repeat split; try reflexivity.
    unfold in_range. cbn [rows cols chans]. intros r c k (Hr & Hc & Hch).
    destruct (Hk k Hch) as (m & Nm & _ & Hm). rewrite Nm.
    destruct (Hm r Hr) as (l & Nl & _ & Hl). rewrite Nl.
    destruct (Hl c Hc) as (v & Ev & Nv). now rewrite Nv, Ev.
  - intros r c k Hn. cbn [get].
    destruct (nth_error d k) as [m|] eqn:Nm; [|reflexivity].
    assert (Hch : k < chans t) by (rewrite <- Ld; apply nth_error_Some; now rewrite Nm).
    destruct (Hk k Hch) as (m' & Nm' & Lm & Hm). rewrite Nm in Nm'. injection Nm' as <-.
    destruct (nth_error m r) as [l|] eqn:Nl; [|reflexivity].
    assert (Hr : r < rows t) by (rewrite <- Lm; apply nth_error_Some; now rewrite Nl).
    destruct (Hm r Hr) as (l' & Nl' & Ll & Hl). rewrite Nl in Nl'. injection Nl' as <-.
    destruct (nth_error l c) as [v|] eqn:Nv; [|reflexivity].
    assert (Hc : c < cols t) by (rewrite <- Ll; apply nth_error_Some; now rewrite Nv).
    exfalso. apply Hn. unfold in_range. auto.
Qed.
End V.
