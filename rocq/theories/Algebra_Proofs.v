(** Finite sums, and loops that compute them. *)
From Coq Require Import List Arith Bool Lia Ring Setoid.
From Verif Require Import Outcome Tensor_Model Tensor_Spec Views_Proofs.
Import ListNotations.

Section AnyOps.
Context {A : Type} (o : ops A).
Notation T := (tensor A).

Definition val (t : T) (r c k : nat) : A := match get t r c k with Ok v => v | _ => zero o end.

Lemma readable_is_tensor : forall t, readable t <-> is_tensor t (rows t) (cols t) (chans t) (val t).
Proof.
  intros t. split.
  - intros H. unfold is_tensor. repeat split; try reflexivity. intros i j l Hi Hj Hl.
    destruct (H i j l) as [v E]; [unfold in_range; auto|]. unfold val. now rewrite E.
  - intros (_ & _ & _ & H) r c k (Hr & Hc & Hk). eauto.
Qed.

Lemma is_tensor_readable : forall (t : T) r c k f, is_tensor t r c k f -> readable t.
Proof. intros t r c k f (<- & <- & <- & H) i j l (Hi & Hj & Hl). eauto. Qed.

Lemma is_tensor_ext : forall (t : T) r c k f g, is_tensor t r c k f ->
  (forall i j l, i < r -> j < c -> l < k -> f i j l = g i j l) -> is_tensor t r c k g.
Proof. intros t r c k f g (H1 & H2 & H3 & H) E. repeat split; auto. intros. rewrite H by auto. now rewrite E. Qed.

Lemma is_tensor_same : forall (t u : T) r c k f, is_tensor t r c k f -> is_tensor u r c k f -> same t u.
Proof.
  intros t u r c k f (H1 & H2 & H3 & H) (G1 & G2 & G3 & G). unfold same. repeat split; try congruence.
  intros i j l (Hi & Hj & Hl). rewrite H1 in Hi. rewrite H2 in Hj. rewrite H3 in Hl. rewrite H, G by auto. reflexivity.
Qed.

Lemma loop_Sum_from : forall n (g : nat -> outcome A) h i s,
  (forall j, j < n -> g (i + j) = Ok (h (i + j))) ->
  loop n i (fun j acc => do v <- g j; Ok (add o acc v)) s =
  Ok (fold_left (add o) (map h (seq i n)) s).
Proof.
  intros n g h. induction n as [|n IH]; intros i s H; [reflexivity|].
  cbn [loop seq map fold_left]. rewrite <- (Nat.add_0_r i) at 1. rewrite H by lia. cbn [obind].
  rewrite Nat.add_0_r. apply IH. intros j Hj. replace (S i + j) with (i + S j) by lia. apply H. lia.
Qed.

Lemma Sum_fold : forall n h, fold_left (add o) (map h (seq 0 n)) (zero o) = Sum o n h.
Proof.
  intros n h. induction n as [|n IH]; [reflexivity|].
  rewrite seq_S, map_app, fold_left_app, IH. reflexivity.
Qed.

Lemma loop_Sum : forall n (g : nat -> outcome A) h, (forall j, j < n -> g j = Ok (h j)) ->
  loop n 0 (fun j acc => do v <- g j; Ok (add o acc v)) (zero o) = Ok (Sum o n h).
Proof.
  intros n g h H. rewrite (loop_Sum_from n g h 0 (zero o)).
  - now rewrite Sum_fold.
  - exact H.
Qed.

Lemma loop_ext : forall {St} n i (f g : nat -> St -> outcome St) s, (forall j s, f j s = g j s) -> loop n i f s = loop n i g s.
Proof. intros St n. induction n as [|n IH]; intros i f g s H; [reflexivity|]. cbn [loop]. rewrite H. destruct (g i s); cbn [obind]; auto. Qed.

Lemma loop_S : forall {St} n i (f : nat -> St -> outcome St) s,
  loop (S n) i f s = (do s' <- loop n i f s; f (i + n) s').
Proof.
  intros St n. induction n as [|n IH]; intros i f s.
  - cbn [loop]. rewrite Nat.add_0_r. cbn [obind]. destruct (f i s); reflexivity.
  - change (loop (S (S n)) i f s) with (do s' <- f i s; loop (S n) (S i) f s').
    change (loop (S n) i f s) with (do s' <- f i s; loop n (S i) f s').
    destruct (f i s); cbn [obind]; try reflexivity. rewrite IH. now replace (S i + n) with (i + S n) by lia.
Qed.

(** Invariant rule for loops that succeed. *)
Lemma loop_inv : forall {St} (P : nat -> St -> Prop) n (f : nat -> St -> outcome St) s,
  P 0 s -> (forall i s, i < n -> P i s -> exists s', f i s = Ok s' /\ P (S i) s') ->
  exists s', loop n 0 f s = Ok s' /\ P n s'.
Proof.
  intros St P n. induction n as [|n IH]; intros f s H0 H; [exists s; auto|].
  destruct (IH f s H0) as (s1 & E1 & P1). { intros i s' Hi. apply H. lia. }
  destruct (H n s1 ltac:(lia) P1) as (s2 & E2 & P2).
  exists s2. rewrite loop_S, E1. cbn [obind Nat.add]. auto.
Qed.

Lemma Sum_ext : forall n f g, (forall i, i < n -> f i = g i) -> Sum o n f = Sum o n g.
Proof. intros n f g. induction n as [|n IH]; intros H; [reflexivity|]. cbn [Sum]. rewrite H, IH by auto. reflexivity. Qed.
End AnyOps.

Section Ring.
Context {A : Type} (o : ops A) (opp : A -> A).
Hypothesis R : ring_theory (zero o) (one o) (add o) (mul o) (sub o) opp eq.
Add Ring Aring : R.
Notation S_ := (Sum o).

Lemma Sum_0 : forall n, S_ n (fun _ => zero o) = zero o.
Proof. induction n as [|n IH]; [reflexivity|]. cbn [Sum]. rewrite IH. ring. Qed.
Lemma Sum_zero : forall n f, (forall i, i < n -> f i = zero o) -> S_ n f = zero o.
Proof. intros n f H. rewrite (Sum_ext o n f (fun _ => zero o) H). apply Sum_0. Qed.
Lemma Sum_add : forall n f g, S_ n (fun i => add o (f i) (g i)) = add o (S_ n f) (S_ n g).
Proof. intros n f g. induction n as [|n IH]; cbn [Sum]; [ring|]. rewrite IH. ring. Qed.
Lemma Sum_mul_l : forall n a f, S_ n (fun i => mul o a (f i)) = mul o a (S_ n f).
Proof. intros n a f. induction n as [|n IH]; cbn [Sum]; [ring|]. rewrite IH. ring. Qed.
Lemma Sum_mul_r : forall n a f, S_ n (fun i => mul o (f i) a) = mul o (S_ n f) a.
Proof. intros n a f. induction n as [|n IH]; cbn [Sum]; [ring|]. rewrite IH. ring. Qed.
Lemma Sum_sub : forall n f g, S_ n (fun i => sub o (f i) (g i)) = sub o (S_ n f) (S_ n g).
Proof. intros n f g. induction n as [|n IH]; cbn [Sum]; [ring|]. rewrite IH. ring. Qed.
Lemma Sum_swap : forall n m f, S_ n (fun i => S_ m (fun j => f i j)) = S_ m (fun j => S_ n (fun i => f i j)).
Proof.
  intros n m f. induction n as [|n IH]; cbn [Sum]; [now rewrite Sum_0|]. rewrite IH. now rewrite <- Sum_add.
Qed.
Lemma Sum_split : forall n m f, S_ (n + m) f = add o (S_ n f) (S_ m (fun i => f (n + i))).
Proof.
  intros n m f. induction m as [|m IH]; cbn [Sum]. - rewrite Nat.add_0_r. ring.
  - rewrite Nat.add_succ_r. cbn [Sum]. rewrite IH. ring.
Qed.
Lemma Sum_first : forall n f, S_ (S n) f = add o (f 0) (S_ n (fun i => f (S i))).
Proof. intros n f. change (S n) with (1 + n). rewrite Sum_split. cbn [Sum Nat.add]. ring. Qed.
Lemma Sum_rev : forall n f, S_ n f = S_ n (fun i => f (n - 1 - i)).
Proof.
  intros n. induction n as [|n IH]; intros f; [reflexivity|].
  rewrite Sum_first. cbn [Sum]. rewrite IH.
  replace (S n - 1 - n) with 0 by lia.
  rewrite (Sum_ext o n (fun i => f (S n - 1 - i)) (fun i => f (S (n - 1 - i)))).
  - ring.
  - intros i Hi. f_equal. lia.
Qed.
Lemma Sum_one : forall n f i, i < n -> (forall j, j < n -> j <> i -> f j = zero o) -> S_ n f = f i.
Proof.
  intros n f i. induction n as [|n IH]; intros Hi H; [lia|]. cbn [Sum].
  destruct (Nat.eq_dec i n) as [->|Hn].
  - rewrite Sum_zero. + ring. + intros j Hj. apply H; lia.
  - rewrite IH by (try lia; intros; apply H; lia). rewrite (H n) by lia. ring.
Qed.
(** A sum over the window [i, i+m) of a longer range. *)
Lemma Sum_window : forall n m i f, i + m <= n ->
  S_ n (fun p => if (i <=? p) && (p <? i + m) then f p else zero o) = S_ m (fun q => f (i + q)).
Proof.
  intros n m i f H. replace n with (i + (m + (n - i - m))) by lia.
  rewrite !Sum_split. rewrite (Sum_zero i), (Sum_zero (n - i - m)).
  - rewrite (Sum_ext o m _ (fun q => f (i + q))); [ring|]. intros q Hq.
    replace (i <=? i + q) with true by (symmetry; apply Nat.leb_le; lia).
    now replace (i + q <? i + m) with true by (symmetry; apply Nat.ltb_lt; lia).
  - intros q Hq. replace (i + (m + q) <? i + m) with false by (symmetry; apply Nat.ltb_ge; lia). now rewrite andb_false_r.
  - intros q Hq. now replace (i <=? q) with false by (symmetry; apply Nat.leb_gt; lia).
Qed.
End Ring.
