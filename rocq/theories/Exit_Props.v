(** C49: early stopping. *)
From Coq Require Import ZArith Arith Bool Lia Reals Lra.
From Flocq Require Import Core.Core IEEE754.Binary IEEE754.Bits.
From Verif Require Import Outcome F32_Model F32_Proofs Reduce_Spec Exit_Model Exit_Spec Exit_Proofs.

(** The improvement tolerance is a number and not negative. *)
Definition sensible (s : settings) : Prop := finite (improvementTolerance s) = true /\ (0 <= val (improvementTolerance s))%R.

(** The strategy answers at every epoch, and it ends training exactly when the minimum number of epochs
    is reached and one of the reasons holds; [best_exists] and [best_unique] give the epoch [b]. *)
Theorem stopping_rule : forall s loss time k b, sensible s -> 0 < k -> best (improvementTolerance s) loss k b ->
  exists answer, done_at s start loss time k = Ok answer /\
    (answer = true <-> minEpochs s <= k /\ exists r, reason_holds s loss time b k r).
Proof.
  intros s loss time k b [Ft Ht] Hk B. destruct (done_at_best s loss time k Ft Ht Hk) as (p & b' & _ & B' & [H1 H2] & E).
  rewrite (best_unique _ _ _ _ _ B' B) in *. eexists. split; [exact E|]. pose proof (best_le _ _ _ _ B) as Hb.
  assert (D : fge (degradation (loss k) p) (maxDegradationTolerance s) = true <-> degraded (maxDegradationTolerance s) loss b k).
  { unfold degradation, degraded. rewrite H2. destruct b as [|b0]; [|intuition lia]. split; [|lia]. intros G. exfalso.
    pose proof (best_zero_nan _ _ _ Ft B Hk) as N. apply (nan_fsub_l _ infinity) in N. apply (nan_fdiv_l _ infinity) in N.
    apply fge_number in G. congruence. }
  rewrite andb_true_iff, !orb_true_iff, !Nat.leb_le, Z.leb_le, D. split.
  - intros [Hm Hor]. split; [exact Hm|]. destruct Hor as [[[[G|G]|G]|G]|G];
      [exists Max_epochs|exists Degraded|exists Time_over|exists Out_of_patience|exists Loss_zero]; cbn [reason_holds]; try assumption. lia.
  - intros [Hm [r Hr]]. split; [exact Hm|]. destruct r; cbn [reason_holds] in Hr; try contradiction; try tauto.
    left. right. lia.
Qed.

(** When training ends the reason given is one that holds. *)
Theorem reported_reason_holds : forall s loss time k b, sensible s -> 0 < k -> best (improvementTolerance s) loss k b ->
  done_at s start loss time k = Ok true ->
  exists p, after s start loss time k = Ok p /\ reason_holds s loss time b k (whyDone s p k (loss k) (time k)).
Proof.
  intros s loss time k b [Ft Ht] Hk B Hd. destruct (done_at_best s loss time k Ft Ht Hk) as (p & b' & Ea & B' & [H1 H2] & E).
  rewrite (best_unique _ _ _ _ _ B' B) in *. exists p. split; [exact Ea|]. rewrite Hd in E. injection E as E. symmetry in E.
  apply andb_true_iff in E as [Hm Hor]. apply Nat.leb_le in Hm. unfold whyDone.
  assert (N : Nat.ltb k (minEpochs s) = false) by (apply Nat.ltb_ge; exact Hm). rewrite N, H1.
  destruct (Nat.leb_spec (maxEpochs s) k) as [G|G]; [exact G|].
  destruct (fge (degradation (loss k) p) (maxDegradationTolerance s)) eqn:D.
  { cbn [reason_holds]. unfold degraded. unfold degradation in D. rewrite H2 in D. destruct b as [|b0]; [exfalso|split; [lia|exact D]].
    pose proof (best_zero_nan _ _ _ Ft B Hk) as Nn. apply (nan_fsub_l _ infinity) in Nn. apply (nan_fdiv_l _ infinity) in Nn.
    apply fge_number in D. congruence. }
  destruct (Z.leb_spec (maxElapsedTime s) (time k)) as [G'|G']; [exact G'|].
  pose proof (best_le _ _ _ _ B) as Hb.
  destruct (Nat.leb_spec (patience s) (k - b)) as [G''|G'']; [cbn [reason_holds]; lia|].
  destruct (fle (loss k) (zeroPrecisionTolerance s)) eqn:F; [exact F|]. cbn [orb] in Hor. discriminate.
Qed.

(** Training ends: after at least the minimum number of epochs (and at least one), and at most the
    maximum number of them, or the minimum if that is larger, or one. *)
Theorem training_ends : forall s loss time, sensible s -> exists N, 1 <= N /\ minEpochs s <= N <= Nat.max 1 (Nat.max (minEpochs s) (maxEpochs s)) /\
  done_at s start loss time N = Ok true /\ forall j, 1 <= j < N -> done_at s start loss time j = Ok false.
Proof.
  intros s loss time Hs. set (top := Nat.max 1 (Nat.max (minEpochs s) (maxEpochs s))).
  assert (Ans : forall k, 0 < k -> exists a, done_at s start loss time k = Ok a /\ (a = true -> minEpochs s <= k) /\
    (minEpochs s <= k -> maxEpochs s <= k -> a = true)).
  { intros k Hk. destruct (best_exists (improvementTolerance s) loss k) as [b B]. destruct (stopping_rule s loss time k b Hs Hk B) as (a & E & H).
    exists a. split; [exact E|]. split; [intros G; now apply H|]. intros G G'. apply H. split; [exact G|]. now exists Max_epochs. }
  assert (Search : forall n, (forall j, 1 <= j <= n -> done_at s start loss time j = Ok false) \/
    exists N, 1 <= N <= n /\ done_at s start loss time N = Ok true /\ forall j, 1 <= j < N -> done_at s start loss time j = Ok false).
  { induction n as [|n [IH|IH]].
    - left. intros j Hj. lia.
    - destruct (Ans (S n)) as (a & E & _ & _); [lia|]. destruct a.
      + right. exists (S n). split; [lia|]. split; [exact E|]. intros j Hj. apply IH. lia.
      + left. intros j Hj. destruct (Nat.eq_dec j (S n)) as [->|]; [exact E|apply IH; lia].
    - right. destruct IH as (N & HN & R). exists N. split; [lia|exact R]. }
  destruct (Search top) as [H|(N & HN & Hd & Hb)].
  - exfalso. destruct (Ans top) as (a & E & _ & Hmax); [subst top; lia|]. rewrite (H top) in E by (subst top; lia). injection E as <-.
    specialize (Hmax ltac:(subst top; lia) ltac:(subst top; lia)). discriminate.
  - exists N. split; [lia|]. destruct (Ans N) as (a & E & Hmin & _); [lia|]. rewrite Hd in E. injection E as <-. specialize (Hmin eq_refl).
    split; [lia|]. split; assumption.
Qed.

(** If none of the [patience] epochs that follow the best one comes below its loss by the tolerance,
    training ends there (if not before). *)
Theorem stops_when_out_of_patience : forall s loss time e, sensible s -> 0 < e ->
  best (improvementTolerance s) loss e e -> minEpochs s <= e + patience s ->
  (forall j, e < j <= e + patience s -> fle (fadd (loss j) (improvementTolerance s)) (loss e) = false) ->
  done_at s start loss time (e + patience s) = Ok true.
Proof.
  intros s loss time e Hs He B Hm Hno.
  assert (Stay : forall n, n <= patience s -> best (improvementTolerance s) loss (e + n) e).
  { induction n as [|n IH]; intros Hn; [now rewrite Nat.add_0_r|]. replace (e + S n) with (S (e + n)) by lia.
    apply best_same; [exact He|apply IH; lia|]. apply Hno. lia. }
  destruct (stopping_rule s loss time (e + patience s) e Hs) as (a & E & H); [lia|apply Stay; lia|]. rewrite E. f_equal. apply H.
  split; [exact Hm|]. exists Out_of_patience. cbn [reason_holds]. lia.
Qed.

(** ** A strategy cannot be used for a second training (C69) *)
(** If the best epoch of the first training was not its first, the second training fails at once
    unless its first epoch beats it. *)
Theorem second_training_refuted : forall s loss time N b p next elapsed, sensible s ->
  best (improvementTolerance s) loss N b -> after s start loss time N = Ok p -> 1 < b ->
  fle (fadd next (improvementTolerance s)) (loss b) = false -> isDone s p 1 next elapsed = Throw.
Proof.
  intros s loss time N b p next elapsed [Ft Ht] B E Hb Hn. destruct (after_best s loss time N Ft Ht) as (p' & b' & E' & B' & H1 & H2).
  rewrite E in E'. injection E' as <-. rewrite (best_unique _ _ _ _ _ B' B) in *. unfold isDone. rewrite H1, H2.
  destruct b as [|b0]; [lia|]. rewrite Hn. assert (L : Nat.ltb 1 (S b0) = true) by (apply Nat.ltb_lt; lia). rewrite L. reflexivity.
Qed.

(** ** Examples *)
(** Patience 2, at most 100 epochs, at least 1, tolerance 0: losses 1, 0.5, 0.625, 0.75 end at epoch 4,
    out of patience (degradation allowed up to 1). *)
Definition ex_settings : settings := {| patience := 2; maxElapsedTime := 60000; maxEpochs := 100; zeroPrecisionTolerance := of_bits 0x3A83126F;
  improvementTolerance := of_bits 0; minEpochs := 1; maxDegradationTolerance := of_bits 0x3F800000 |}.
Definition ex_loss (k : nat) : binary32 := match k with 1 => of_bits 0x3F800000 | 2 => of_bits 0x3F000000 | 3 => of_bits 0x3F200000 | _ => of_bits 0x3F400000 end.
Example ex_sensible : sensible ex_settings.
Proof. split; [reflexivity|]. cbn. lra. Qed.
Example ex_best : best (improvementTolerance ex_settings) ex_loss 2 2.
Proof. apply (best_better _ _ _ 1); [lia| |reflexivity]. apply best_first; [constructor|reflexivity]. Qed.
Example ex_ends : done_at ex_settings start ex_loss (fun _ => 5%Z) 4 = Ok true.
Proof.
  apply (stops_when_out_of_patience ex_settings ex_loss (fun _ => 5%Z) 2 ex_sensible); [lia|exact ex_best|cbn; lia|].
  intros j Hj. cbn [patience ex_settings] in Hj. assert (C : j = 3 \/ j = 4) by lia. destruct C as [-> | ->]; reflexivity.
Qed.

Print Assumptions stopping_rule.
Print Assumptions reported_reason_holds.
Print Assumptions training_ends.
Print Assumptions stops_when_out_of_patience.
Print Assumptions second_training_refuted.
