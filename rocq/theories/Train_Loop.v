From Coq Require Import ZArith NArith List Arith Bool Lia Reals Lra.
From Flocq Require Import Core.Core IEEE754.Binary IEEE754.Bits.
From Verif Require Import Outcome F32_Model F32_Proofs Reduce_Spec Reduce_Proofs Exit_Model Exit_Spec Exit_Proofs Exit_Props Train_Model Train_Spec.
Import ListNotations.
Local Open Scope nat_scope.

(** ** Comparisons *)
Lemma flt_number : forall x y, flt x y = true -> number x = true /\ number y = true.
Proof.
  intros x y H. unfold flt in H. destruct (number x) eqn:Nx.
  - destruct (number y) eqn:Ny; [now split|]. rewrite (compare_nan_r x y) in H by exact Ny. discriminate.
  - rewrite (compare_nan_l x y) in H by exact Nx. discriminate.
Qed.
Lemma fle_flt_trans : forall x y z, fle x y = true -> flt y z = true -> flt x z = true.
Proof.
  intros x y z H1 H2. destruct (fle_number _ _ H1) as [Nx Ny]. destruct (flt_number _ _ H2) as [_ Nz].
  apply flt_order; try assumption. apply (fle_order x y Nx Ny) in H1. apply (flt_order y z Ny Nz) in H2. lra.
Qed.
Lemma flt_fle : forall x y, flt x y = true -> fle x y = true.
Proof.
  intros x y H. destruct (flt_number _ _ H) as [Nx Ny]. apply fle_order; try assumption. apply (flt_order x y Nx Ny) in H. lra.
Qed.
Lemma flt_irrefl : forall x, flt x x = false.
Proof. intros x. destruct (flt x x) eqn:E; [|reflexivity]. destruct (flt_number _ _ E) as [N _]. apply (flt_order x x N N) in E. lra. Qed.

(** ** The loop *)
Definition upd {A} (f : nat -> A) (i : nat) (x : A) (j : nat) : A := if Nat.eqb j i then x else f j.
Lemma upd_same : forall {A} (f : nat -> A) i x, upd f i x i = x.
Proof. intros. unfold upd. now rewrite Nat.eqb_refl. Qed.
Lemma upd_other : forall {A} (f : nat -> A) i x j, j <> i -> upd f i x j = f j.
Proof. intros A f i x j H. unfold upd. destruct (Nat.eqb_spec j i); [contradiction|reflexivity]. Qed.

Lemma after_ext : forall s p l l' t t' k, (forall j, 1 <= j <= k -> l j = l' j /\ t j = t' j) -> after s p l t k = after s p l' t' k.
Proof.
  intros s p l l' t t' k. induction k as [|k IH]; intros H; [reflexivity|]. cbn [after]. rewrite IH by (intros j Hj; apply H; lia).
  destruct (H (S k)) as [-> ->]; [lia|reflexivity].
Qed.
Lemma done_ext : forall s p l l' t t' k, 1 <= k -> (forall j, 1 <= j <= k -> l j = l' j /\ t j = t' j) -> done_at s p l t k = done_at s p l' t' k.
Proof.
  intros s p l l' t t' k Hk H. unfold done_at. rewrite (after_ext s p l l' t t') by (intros j Hj; apply H; lia).
  destruct (H k) as [-> ->]; [lia|reflexivity].
Qed.

Section Loop.
Context {net rec : Type} (W : network net rec binary32) (s : settings) (size : nat) (use_test : bool) (retention : policy)
  (order : nat -> list rec) (duration : nat -> Z) (w0 : net) (p0 : progress).

(** The report and the checkpoint after [e] epochs. *)
Definition kept (nets : nat -> net) (training testing : nat -> binary32) (e : nat) (st : loop_state net) : Prop :=
  (lowest st = infinity /\ final_test_loss (report st) = infinity /\ checkpoint st = None /\ forall j, j < e -> flt (testing j) infinity = false) \/
  (exists b, first_lowest testing e b /\ lowest st = testing b /\ final_test_loss (report st) = testing b /\ epochs (report st) = b /\
     (retention = Best -> checkpoint st = Some (nets b)) /\
     (generalized (report st) = true <-> exists j, j <= b /\ flt (training j) (training 0) = true)).
(** The training losses in the report after [e] epochs. *)
Definition learned (training : nat -> binary32) (e : nat) (r : result) : Prop :=
  match e with
  | 0 => trained r = false
  | _ => initial_train_loss r = training 0 /\ lowest_of training e (best_train_loss r) /\ (best_train_loss r = training 0 \/ flt (best_train_loss r) (training 0) = true) /\
         (trained r = true <-> exists j, j < e /\ flt (training j) (training 0) = true)
  end.
Definition so_far (nets : nat -> net) (training testing : nat -> binary32) (e : nat) (st : loop_state net) : Prop :=
  trajectory W size use_test order w0 e nets training testing /\
  current st = match e with 0 => w0 | S e' => nets e' end /\
  after s p0 (from_one testing) (from_one duration) e = Ok (exit st) /\
  kept nets training testing e st /\ learned training e (report st).

Lemma learned_step : forall training e lt r, learned training e r -> learned (upd training e lt) (S e) (report_training e lt r).
Proof.
  intros training e lt r H. destruct e as [|e]; cbn [learned report_training] in *.
  - cbn [initial_train_loss best_train_loss trained]. rewrite H. split; [now rewrite upd_same|]. split; [|split; [left; now rewrite upd_same|]].
    + split; [exists 0; split; [lia|now rewrite upd_same]|]. intros j Hj. assert (j = 0) as -> by lia. rewrite upd_same. apply flt_irrefl.
    + split; [discriminate|]. intros (j & Hj & F). assert (j = 0) as -> by lia. rewrite flt_irrefl in F. discriminate.
  - destruct H as (H1 & ((b & Hb & Eb) & H2) & HZ & H3). cbv zeta. cbn [initial_train_loss best_train_loss trained]. rewrite (upd_other training (S e) lt 0) by lia.
    assert (B : forall best, best = (if flt lt (best_train_loss r) then lt else best_train_loss r) -> lowest_of (upd training (S e) lt) (S (S e)) best /\ (best = training 0 \/ flt best (training 0) = true)).
    { intros best ->. destruct (flt lt (best_train_loss r)) eqn:F; (split; [split|]).
      - exists (S e). split; [lia|now rewrite upd_same].
      - intros j Hj. destruct (Nat.eq_dec j (S e)) as [->|Nj]; [rewrite upd_same; apply flt_irrefl|]. rewrite upd_other by lia. destruct (flt (training j) lt) eqn:G; [|reflexivity].
        rewrite <- (H2 j) by lia. symmetry. eapply fle_flt_trans; [apply flt_fle; exact G|exact F].
      - right. destruct HZ as [HZ|HZ]; [now rewrite <- HZ|]. eapply fle_flt_trans; [apply flt_fle; exact F|exact HZ].
      - exists b. split; [lia|]. rewrite upd_other by lia. exact Eb.
      - intros j Hj. destruct (Nat.eq_dec j (S e)) as [->|Nj]; [rewrite upd_same; exact F|]. rewrite upd_other by lia. apply H2. lia.
      - exact HZ. }
    specialize (B _ eq_refl). set (best := if flt lt (best_train_loss r) then lt else best_train_loss r) in *. clearbody best. destruct B as [B HZ']. split; [exact H1|]. split; [exact B|]. split; [exact HZ'|]. destruct B as [(c & Hc & Ec) B]. rewrite H1. split.
    + intros F. exists c. split; [exact Hc|]. now rewrite <- Ec.
    + intros (j & Hj & F). specialize (B j Hj). destruct HZ' as [->|HZ']; [congruence|exact HZ'].
Qed.
Lemma round_step : forall nets training testing e st st' d, so_far nets training testing e st ->
  round W s size use_test retention order duration e st = Ok (st', d) ->
  exists w lt lv, so_far (upd nets e w) (upd training e lt) (upd testing e lv) (S e) st' /\
    done_at s p0 (from_one (upd testing e lv)) (from_one duration) (S e) = Ok d.
Proof.
  intros nets training testing e st st' d (Ht & Hc & Ha & Hk & Hr) H. unfold round in H.
  destruct (epoch float_arith W size (order e) (current st)) as [[[w lt] tr]| |] eqn:Ee; try discriminate. cbn [obind] in H.
  set (mm := if use_test then measure W w else Ok lt) in *. destruct mm as [lv| |] eqn:Em; try discriminate. cbn [obind] in H. subst mm.
  cbv zeta in H. exists w, lt, lv.
  set (r := report_training e lt (report st)) in *.
  assert (Er : final_test_loss r = final_test_loss (report st) /\ epochs r = epochs (report st)) by (subst r; destruct e; now split).
  destruct Er as [Er1 Er2]. pose proof (learned_step training e lt (report st) Hr) as Hr'. fold r in Hr'.
  assert (Eg : generalized r = generalized (report st)) by (subst r; destruct e; reflexivity). clearbody r.
  set (st1 := if flt lv (lowest st) then _ else _) in H.
  assert (X1 : exit st1 = exit st) by (subst st1; destruct (flt lv (lowest st)); reflexivity).
  assert (C1 : current st1 = w) by (subst st1; destruct (flt lv (lowest st)); reflexivity).
  destruct (isDone s (exit st1) (S e) lv (duration e)) as [[p done]| |] eqn:Ed; try discriminate. cbn [obind] in H. injection H as <- <-.
  assert (Ext : forall j, 1 <= j <= e -> from_one (upd testing e lv) j = from_one testing j /\ from_one duration j = from_one duration j).
  { intros j Hj. split; [|reflexivity]. unfold from_one. apply upd_other. lia. }
  assert (Ea : after s p0 (from_one (upd testing e lv)) (from_one duration) e = Ok (exit st1)).
  { rewrite X1, <- Ha. now apply after_ext. }
  assert (El : from_one (upd testing e lv) (S e) = lv) by (unfold from_one; replace (S e - 1) with e by lia; apply upd_same).
  assert (Et : from_one duration (S e) = duration e) by (unfold from_one; now replace (S e - 1) with e by lia).
  split.
  2:{ unfold done_at. replace (S e - 1) with e by lia. rewrite Ea. cbn [obind]. rewrite El, Et, Ed. reflexivity. }
  split; [|split; [|split; [|split]]].
  - intros j Hj. destruct (Nat.eq_dec j e) as [->|Nj].
    + rewrite !upd_same. split.
      * exists tr. replace (match e with 0 => w0 | S e' => upd nets e w e' end) with (current st); [exact Ee|].
        rewrite Hc. destruct e as [|e']; [reflexivity|]. rewrite upd_other by lia. reflexivity.
      * destruct use_test; [exact Em|congruence].
    + rewrite !upd_other by lia. destruct (Ht j) as [[tr' H1] H2]; [lia|]. split; [|exact H2]. exists tr'.
      destruct j as [|j']; [exact H1|]. rewrite upd_other by lia. exact H1.
  - cbn [current]. rewrite C1, upd_same. reflexivity.
  - cbn [after exit]. rewrite Ea. cbn [obind]. rewrite El, Et, Ed. reflexivity.
  - unfold kept. cbn [lowest report checkpoint]. subst st1. destruct (flt lv (lowest st)) eqn:Ec; cbn [lowest report checkpoint].
    + right. exists e. rewrite !upd_same.
      assert (Hl : forall j, j < e -> fle (testing j) lv = false).
      { intros j Hj. destruct (fle (testing j) lv) eqn:F; [|reflexivity]. exfalso. pose proof (fle_flt_trans _ _ _ F Ec) as G.
        destruct Hk as [(K1 & K2 & K3 & K4)|(b & (B1 & B2 & B3 & B4) & K2 & _)].
        - rewrite K1 in G. rewrite (K4 j Hj) in G. discriminate.
        - rewrite K2 in G. rewrite (B3 j Hj) in G. discriminate. }
      split; [|split; [|split; [|split; [|split]]]].
      * split; [lia|]. rewrite !upd_same. split.
        { destruct Hk as [(K1 & _)|(b & (B1 & B2 & B3 & B4) & K2 & _)]; [now rewrite K1 in Ec|]. rewrite K2 in Ec. eapply fle_flt_trans; [apply flt_fle; exact Ec|exact B2]. }
        split.
        { intros j Hj. destruct (Nat.eq_dec j e) as [->|Nj]; [rewrite upd_same; apply flt_irrefl|]. rewrite upd_other by lia.
          destruct (flt (testing j) lv) eqn:F; [|reflexivity]. apply flt_fle in F. rewrite Hl in F by lia. discriminate. }
        { intros j Hj. rewrite upd_other by lia. now apply Hl. }
      * reflexivity.
      * unfold report_testing. rewrite Er1. assert (G : flt lv (final_test_loss (report st)) = true).
        { destruct Hk as [(K1 & K2 & _)|(b & _ & K1 & K2 & _)]; rewrite K1 in Ec; now rewrite K2. }
        rewrite G. reflexivity.
      * unfold report_testing. rewrite Er1. assert (G : flt lv (final_test_loss (report st)) = true).
        { destruct Hk as [(K1 & K2 & _)|(b & _ & K1 & K2 & _)]; rewrite K1 in Ec; now rewrite K2. }
        rewrite G. reflexivity.
      * intros ->. reflexivity.
      * unfold report_testing. rewrite Er1. assert (G : flt lv (final_test_loss (report st)) = true).
        { destruct Hk as [(K1 & K2 & _)|(b & _ & K1 & K2 & _)]; rewrite K1 in Ec; now rewrite K2. }
        rewrite G. cbn [generalized]. destruct Hr' as (_ & _ & _ & ->). split; intros (j & Hj & F); exists j; (split; [lia|exact F]).
    + destruct Hk as [(K1 & K2 & K3 & K4)|(b & (B1 & B2 & B3 & B4) & K1 & K2 & K3 & K4 & K5)].
      * left. rewrite Er1. repeat split; try assumption. intros j Hj. destruct (Nat.eq_dec j e) as [->|Nj]; [rewrite upd_same; congruence|].
        rewrite upd_other by lia. apply K4. lia.
      * right. exists b. rewrite Er1, Er2, Eg. rewrite !(upd_other _ e _ b) by lia. split; [split; [lia|split; [|split]]|split; [exact K1|split; [exact K2|split; [exact K3|split; [exact K4|]]]]].
        { rewrite upd_other by lia. exact B2. }
        { intros j Hj. rewrite (upd_other _ e _ b) by lia. destruct (Nat.eq_dec j e) as [->|Nj]; [rewrite upd_same; congruence|]. rewrite upd_other by lia. apply B3. lia. }
        { intros j Hj. rewrite !upd_other by lia. now apply B4. }
        { rewrite K5. split; intros (j & Hj & F); exists j; (split; [lia|]); [rewrite !upd_other by lia; exact F|rewrite !upd_other in F by lia; exact F]. }
  - cbn [report]. subst st1. destruct (flt lv (lowest st)); cbn [report]; [|exact Hr']. unfold report_testing. destruct (flt lv (final_test_loss r)); exact Hr'.
Qed.

Lemma rounds_end : forall fuel e st st' nets training testing, so_far nets training testing e st ->
  (forall j, 1 <= j <= e -> done_at s p0 (from_one testing) (from_one duration) j = Ok false) ->
  rounds W s size use_test retention order duration fuel e st = Ok (Some st') ->
  exists N nets training testing, e < N /\ so_far nets training testing N st' /\
    done_at s p0 (from_one testing) (from_one duration) N = Ok true /\
    (forall j, 1 <= j < N -> done_at s p0 (from_one testing) (from_one duration) j = Ok false).
Proof.
  induction fuel as [|fuel IH]; intros e st st' nets training testing Hs Hd H; [discriminate|]. cbn [rounds] in H.
  destruct (round W s size use_test retention order duration e st) as [[st1 d]| |] eqn:Er; try discriminate. cbn [obind] in H.
  destruct (round_step _ _ _ _ _ _ _ Hs Er) as (w & lt & lv & Hs1 & Hd1).
  assert (Hd2 : forall j, 1 <= j <= e -> done_at s p0 (from_one (upd testing e lv)) (from_one duration) j = Ok false).
  { intros j Hj. rewrite <- (Hd j Hj). apply done_ext; [lia|]. intros i Hi. split; [|reflexivity]. unfold from_one. apply upd_other. lia. }
  destruct d.
  - injection H as <-. exists (S e), (upd nets e w), (upd training e lt), (upd testing e lv). split; [lia|]. split; [exact Hs1|]. split; [exact Hd1|].
    intros j Hj. apply Hd2. lia.
  - eapply IH in H; [|exact Hs1|].
    + destruct H as (N & n' & tr' & te' & HN & R). exists N, n', tr', te'. split; [lia|exact R].
    + intros j Hj. destruct (Nat.eq_dec j (S e)) as [->|Nj]; [exact Hd1|]. apply Hd2. lia.
Qed.

(** Not being done means that the answers were all no. *)
Lemma rounds_not_over : forall fuel e st nets training testing, so_far nets training testing e st ->
  (forall j, 1 <= j <= e -> done_at s p0 (from_one testing) (from_one duration) j = Ok false) ->
  rounds W s size use_test retention order duration fuel e st = Ok None ->
  exists testing, forall j, 1 <= j <= e + fuel -> done_at s p0 (from_one testing) (from_one duration) j = Ok false.
Proof.
  induction fuel as [|fuel IH]; intros e st nets training testing Hs Hd H; [exists testing; rewrite Nat.add_0_r; exact Hd|]. cbn [rounds] in H.
  destruct (round W s size use_test retention order duration e st) as [[st1 d]| |] eqn:Er; try discriminate. cbn [obind] in H.
  destruct (round_step _ _ _ _ _ _ _ Hs Er) as (w & lt & lv & Hs1 & Hd1).
  assert (Hd2 : forall j, 1 <= j <= e -> done_at s p0 (from_one (upd testing e lv)) (from_one duration) j = Ok false).
  { intros j Hj. rewrite <- (Hd j Hj). apply done_ext; [lia|]. intros i Hi. split; [|reflexivity]. unfold from_one. apply upd_other. lia. }
  destruct d; [discriminate|]. eapply IH in H; [|exact Hs1|].
  - destruct H as [t Ht]. exists t. intros j Hj. apply Ht. lia.
  - intros j Hj. destruct (Nat.eq_dec j (S e)) as [->|Nj]; [exact Hd1|]. apply Hd2. lia.
Qed.
End Loop.
