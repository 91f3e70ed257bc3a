From Coq Require Import ZArith NArith List Arith Bool Lia Reals Lra.
From Flocq Require Import Core.Core IEEE754.Binary IEEE754.Bits.
From Verif Require Import Outcome F32_Model F32_Proofs Scaling_Spec Scaling_Proofs Reduce_Spec Reduce_Proofs Exit_Model Exit_Spec Exit_Proofs Exit_Props Train_Model Train_Spec.
Import ListNotations.
Local Open Scope nat_scope.

(** ** One epoch *)
Section Epoch.
Context {net rec F : Type} (A : arith F) (W : network net rec F) (size : nat).

Fixpoint trace_of (off : nat) (records : list rec) : list (event rec) :=
  match records with
  | [] => []
  | r :: rest => if Nat.leb size (S off) || match rest with [] => true | _ => false end then Trained r :: Updated :: trace_of 0 rest
                 else Trained r :: trace_of (S off) rest
  end.
Fixpoint loss_fold (off : nat) (bl el : F) (cur : nat) (losses : list F) : F :=
  match losses with
  | [] => el
  | l :: rest => if Nat.leb size (S off) || match rest with [] => true | _ => false end
                 then loss_fold 0 (azero A) (aadd A el (adiv A (asub A (adiv A (aadd A bl l) (aof_nat A (S off))) el) (aof_nat A (S cur / size)))) (S cur) rest
                 else loss_fold (S off) (aadd A bl l) el (S cur) rest
  end.
Lemma epoch_records_pure : forall records w off bl el cur w' l tr, epoch_records A W size records w off bl el cur = Ok (w', l, tr) ->
  exists losses, length losses = length records /\ replays W w tr w' losses /\ tr = trace_of off records /\ l = loss_fold off bl el cur losses.
Proof.
  induction records as [|r rest IH]; intros w off bl el cur w' l tr H.
  - cbn in H. injection H as <- <- <-. exists []. repeat split. constructor.
  - cbn [epoch_records] in H. destruct (observe W w r) as [[w1 x]| |] eqn:Eo; try discriminate. cbn [obind] in H.
    destruct (Nat.leb size (S off) || match rest with [] => true | _ => false end) eqn:Ec.
    + destruct (Nat.eqb_spec size 0) as [Z|Z]; [discriminate|]. cbn [obind] in H.
      destruct (update W w1) as [w2| |] eqn:Eu; try discriminate. cbn [obind] in H.
      destruct (epoch_records A W size rest w2 0 (azero A) _ (S cur)) as [[[w3 l3] tr3]| |] eqn:Er; try discriminate. cbn [obind] in H.
      injection H as <- <- <-. apply IH in Er as (losses & L & R & -> & ->). exists (x :: losses). split; [cbn [length]; congruence|].
      split; [eapply replays_trained; [exact Eo|eapply replays_updated; eauto]|].
      split; [cbn [trace_of]; now rewrite Ec|]. cbn [loss_fold].
      assert (Ec' : Nat.leb size (S off) || match losses with [] => true | _ => false end = true).
      { destruct rest, losses; cbn in L; try discriminate; exact Ec. }
      now rewrite Ec'.
    + destruct (epoch_records A W size rest w1 (S off) _ el (S cur)) as [[[w3 l3] tr3]| |] eqn:Er; try discriminate. cbn [obind] in H.
      injection H as <- <- <-. apply IH in Er as (losses & L & R & -> & ->). exists (x :: losses). split; [cbn [length]; congruence|].
      split; [eapply replays_trained; [exact Eo|exact R]|].
      split; [cbn [trace_of]; now rewrite Ec|]. cbn [loss_fold].
      assert (Ec' : Nat.leb size (S off) || match losses with [] => true | _ => false end = false).
      { destruct rest, losses; cbn in L; try discriminate; exact Ec. }
      now rewrite Ec'.
Qed.

Lemma trace_full : forall b off rest, 0 < length b -> off + length b = size -> trace_of off (b ++ rest) = map Trained b ++ Updated :: trace_of 0 rest.
Proof.
  induction b as [|r b IH]; intros off rest Hl Hs; [cbn in Hl; lia|]. cbn [app trace_of length] in *. destruct b as [|r' b].
  - cbn [length] in Hs. assert (E : Nat.leb size (S off) = true) by (apply Nat.leb_le; lia). rewrite E. reflexivity.
  - assert (E : Nat.leb size (S off) = false) by (apply Nat.leb_gt; cbn [length] in Hs; lia). rewrite E. cbn [orb app map].
    f_equal. apply (IH (S off) rest); cbn [length] in *; lia.
Qed.
Lemma trace_last : forall b off, 0 < length b -> off + length b <= size -> trace_of off b = map Trained b ++ [Updated].
Proof.
  induction b as [|r b IH]; intros off Hl Hs; [cbn in Hl; lia|]. cbn [trace_of length] in *. destruct b as [|r' b].
  - rewrite orb_true_r. reflexivity.
  - assert (E : Nat.leb size (S off) = false) by (apply Nat.leb_gt; cbn [length] in Hs; lia). rewrite E. cbn [orb map app].
    f_equal. apply (IH (S off)); cbn [length] in *; lia.
Qed.
End Epoch.

Lemma trace_batches : forall {rec} size (records : list rec) bs, 0 < size -> batched size records bs ->
  trace_of size 0 records = concat (map batch_events bs).
Proof.
  intros rec size records bs Hs H. induction H as [|b Hb|b rest bs Hb Hne H IH].
  - reflexivity.
  - cbn [map concat]. rewrite app_nil_r. now apply trace_last.
  - cbn [map concat]. rewrite trace_full by lia. rewrite IH. unfold batch_events at 2. rewrite <- app_assoc. reflexivity.
Qed.
Lemma batched_exists : forall {A} size (l : list A), 0 < size -> exists bs, batched size l bs.
Proof.
  intros A size l Hs. remember (length l) as n eqn:En. revert l En. induction n as [n IH] using lt_wf_ind. intros l En.
  destruct (le_lt_dec (length l) size) as [H|H].
  - destruct l as [|x l]; [exists []; constructor|]. exists [x :: l]. constructor. cbn [length] in *. lia.
  - destruct (IH (length (skipn size l))) with (l := skipn size l) as [bs Hb]; [rewrite skipn_length; lia|reflexivity|].
    exists (firstn size l :: bs). rewrite <- (firstn_skipn size l) at 1. constructor; [rewrite firstn_length; lia| |exact Hb].
    intros E. apply (f_equal (@length A)) in E. rewrite skipn_length in E. cbn in E. lia.
Qed.
Lemma app_same_length : forall {A} (a b c d : list A), length a = length b -> a ++ c = b ++ d -> a = b /\ c = d.
Proof.
  induction a as [|x a IH]; intros [|y b] c d L E; cbn in L; try discriminate; [now split|]. cbn in E. injection E as <- E.
  destruct (IH b c d) as [-> ->]; [congruence|exact E|now split].
Qed.
Lemma batched_unique : forall {A} size (l : list A) bs bs', 0 < size -> batched size l bs -> batched size l bs' -> bs = bs'.
Proof.
  intros A size l bs bs' Hs H. revert bs'. induction H as [|b Hb|b rest bs Hb Hne H IH]; intros bs' H'.
  - inversion H' as [|b Hb E|b rest bs Hb Hne Hr E]; subst; [reflexivity|cbn in Hb; lia|]. destruct b; [cbn in *; lia|discriminate].
  - inversion H' as [E|b' Hb' E|b' rest bs Hb' Hne Hr E]; subst; [cbn in Hb; lia|reflexivity|]. exfalso. rewrite app_length in Hb. destruct rest; [contradiction|cbn in Hb; lia].
  - inversion H' as [E|b' Hb' E|b' rest' bs2 Hb' Hne' Hr E]; subst.
    + symmetry in E. apply app_eq_nil in E as [-> ->]. contradiction.
    + exfalso. rewrite app_length in Hb'. destruct rest; [contradiction|cbn in Hb'; lia].
    + assert (Eb : b' = b /\ rest' = rest).
      { apply app_same_length; [congruence|exact E]. }
      destruct Eb as [-> ->]. f_equal. now apply IH.
Qed.

(** ** The loss of an epoch, in exact arithmetic *)
Local Open Scope R_scope.
Definition real_arith : arith R := {| azero := 0; aadd := Rplus; asub := Rminus; adiv := Rdiv; aof_nat := INR |}.
Lemma fold_full : forall size b off bl el cur rest, (0 < length b)%nat -> (off + length b = size)%nat ->
  loss_fold real_arith size off bl el cur (b ++ rest) =
  loss_fold real_arith size 0 0 (el + ((bl + Scaling_Spec.sum b) / INR size - el) / INR ((cur + length b) / size)) (cur + length b) rest.
Proof.
  induction b as [|r b IH]; intros off bl el cur rest Hl Hs; [cbn in Hl; lia|]. cbn [app loss_fold length] in *. destruct b as [|r' b].
  - cbn [length] in *. assert (E : Nat.leb size (S off) = true) by (apply Nat.leb_le; lia). rewrite E. cbn [orb app].
    cbn [azero aadd asub adiv aof_nat real_arith]. replace (S off) with size by lia. replace (cur + 1)%nat with (S cur) by lia.
    unfold Scaling_Spec.sum. cbn [fold_right]. now rewrite Rplus_0_r.
  - assert (E : Nat.leb size (S off) = false) by (apply Nat.leb_gt; cbn [length] in Hs; lia). rewrite E. cbn [orb app].
    change (r' :: b ++ rest) with ((r' :: b) ++ rest). rewrite IH by (cbn [length] in *; lia). cbn [aadd real_arith].
    replace (S cur + length (r' :: b))%nat with (cur + S (length (r' :: b)))%nat by lia.
    unfold Scaling_Spec.sum. cbn [fold_right]. now rewrite Rplus_assoc.
Qed.
Lemma fold_last : forall size b off bl el cur, (0 < length b)%nat -> (off + length b <= size)%nat ->
  loss_fold real_arith size off bl el cur b = el + ((bl + Scaling_Spec.sum b) / INR (off + length b) - el) / INR ((cur + length b) / size).
Proof.
  induction b as [|r b IH]; intros off bl el cur Hl Hs; [cbn in Hl; lia|]. cbn [loss_fold length] in *. destruct b as [|r' b].
  - rewrite orb_true_r. cbn [loss_fold azero aadd asub adiv aof_nat real_arith length]. replace (off + 1)%nat with (S off) by lia. replace (cur + 1)%nat with (S cur) by lia.
    unfold Scaling_Spec.sum. cbn [fold_right]. now rewrite Rplus_0_r.
  - assert (E : Nat.leb size (S off) = false) by (apply Nat.leb_gt; cbn [length] in Hs; lia). rewrite E. cbn [orb].
    rewrite IH by (cbn [length] in *; lia). cbn [aadd real_arith].
    replace (S cur + length (r' :: b))%nat with (cur + S (length (r' :: b)))%nat by lia. replace (S off + length (r' :: b))%nat with (off + S (length (r' :: b)))%nat by lia.
    unfold Scaling_Spec.sum. cbn [fold_right]. now rewrite Rplus_assoc.
Qed.
Lemma average_snoc : forall l x, average (l ++ [x]) = average l + (x - average l) / INR (S (length l)).
Proof.
  intros l x. unfold average. rewrite Scaling_Proofs.sum_app, app_length. cbn [length]. rewrite Nat.add_1_r. unfold Scaling_Spec.sum at 2. cbn [fold_right].
  destruct l as [|y l]; [cbn [length fold_right]; unfold Scaling_Spec.sum; cbn [fold_right INR]; unfold Rdiv; rewrite Rinv_1; ring|].
  assert (0 < INR (length (y :: l))) by (apply lt_0_INR; cbn; lia). rewrite S_INR. field. lra.
Qed.

Lemma batched_length : forall {A} size (l : list A) bs, batched size l bs -> length (concat bs) = length l.
Proof. intros A size l bs H. induction H; cbn [concat]; [reflexivity|now rewrite app_nil_r|]. rewrite !app_length. lia. Qed.
Lemma batched_concat : forall {A} size (l : list A) bs, batched size l bs -> concat bs = l.
Proof. intros A size l bs H. induction H; cbn [concat]; [reflexivity|apply app_nil_r|congruence]. Qed.
Lemma fold_divides : forall size losses lb, (0 < size)%nat -> batched size losses lb -> (length losses mod size = 0)%nat ->
  forall ms, loss_fold real_arith size 0 0 (average ms) (length ms * size) losses = average (ms ++ map average lb).
Proof.
  intros size losses lb Hs H. induction H as [|b Hb|b rest bs Hb Hne H IH]; intros Hd ms.
  - cbn [map loss_fold]. now rewrite app_nil_r.
  - assert (E : length b = size). { destruct (Nat.eq_dec (length b) size) as [|N]; [assumption|]. rewrite Nat.mod_small in Hd by lia. lia. }
    rewrite fold_last by lia. cbn [map]. rewrite average_snoc, Rplus_0_l, Nat.add_0_l.
    replace ((length ms * size + length b) / size)%nat with (S (length ms)); [unfold average at 3; reflexivity|].
    rewrite E. replace (length ms * size + size)%nat with (S (length ms) * size)%nat by lia. now rewrite Nat.div_mul by lia.
  - rewrite fold_full by lia. cbn [map]. assert (E : ((length ms * size + length b) / size = S (length ms))%nat).
    { rewrite Hb. replace (length ms * size + size)%nat with (S (length ms) * size)%nat by lia. now rewrite Nat.div_mul by lia. }
    rewrite E, Rplus_0_l. specialize (IH ltac:(rewrite app_length, Hb in Hd; rewrite <- Hd; replace (size + length rest)%nat with (length rest + 1 * size)%nat by lia; now rewrite Nat.mod_add by lia) (ms ++ [average b])).
    rewrite <- app_assoc in IH. cbn [app] in IH. rewrite <- IH. rewrite app_length. cbn [length]. rewrite average_snoc.
    assert (Ea : average b = Scaling_Spec.sum b / INR size) by (unfold average; now rewrite Hb). rewrite Ea.
    now replace ((length ms + 1) * size)%nat with (length ms * size + length b)%nat by lia.
Qed.
Lemma fold_partial : forall size losses lb, (0 < size)%nat -> batched size losses lb -> (length losses mod size <> 0)%nat ->
  exists full p, lb = full ++ [p] /\ (forall b, In b full -> length b = size) /\ (0 < length p < size)%nat /\
  forall ms, let M := average (ms ++ map average full) in
    loss_fold real_arith size 0 0 (average ms) (length ms * size) losses = M + (average p - M) / INR (length ms + length full).
Proof.
  intros size losses lb Hs H. induction H as [|b Hb|b rest bs Hb Hne H IH]; intros Hd.
  - exfalso. apply Hd. cbn. apply Nat.mod_small. lia.
  - assert (E : (length b < size)%nat). { destruct (Nat.eq_dec (length b) size) as [N|]; [|lia]. exfalso. apply Hd. rewrite N. apply Nat.mod_same. lia. }
    exists [], b. split; [reflexivity|]. split; [intros x []|]. split; [lia|]. intros ms. cbv zeta. cbn [map length]. rewrite app_nil_r, Nat.add_0_r.
    rewrite fold_last by lia. rewrite Rplus_0_l, Nat.add_0_l.
    replace ((length ms * size + length b) / size)%nat with (length ms); [unfold average at 3 5; reflexivity|].
    rewrite Nat.add_comm, Nat.div_add by lia. now rewrite Nat.div_small by lia.
  - destruct IH as (full & p & -> & Hf & Hp & IH).
    { rewrite app_length, Hb in Hd. intros E. apply Hd. rewrite <- E. replace (size + length rest)%nat with (length rest + 1 * size)%nat by lia. now rewrite Nat.mod_add by lia. }
    exists (b :: full), p. split; [reflexivity|]. split; [intros x [<-|Hx]; [exact Hb|now apply Hf]|]. split; [exact Hp|]. intros ms. cbv zeta.
    rewrite fold_full by lia. cbn [map]. assert (E : ((length ms * size + length b) / size = S (length ms))%nat).
    { rewrite Hb. replace (length ms * size + size)%nat with (S (length ms) * size)%nat by lia. now rewrite Nat.div_mul by lia. }
    rewrite E, Rplus_0_l. specialize (IH (ms ++ [average b])). cbv zeta in IH. rewrite <- !app_assoc in IH. cbn [app] in IH.
    rewrite app_length in IH. cbn [length] in *. rewrite average_snoc in IH. assert (Ea : average b = Scaling_Spec.sum b / INR size) by (unfold average; now rewrite Hb). rewrite Ea in IH. rewrite Ea.
    replace ((length ms + 1) * size)%nat with (length ms * size + length b)%nat in IH by lia. rewrite IH.
    now replace (length ms + 1 + length full)%nat with (length ms + S (length full))%nat by lia.
Qed.
Lemma average_batches : forall size (bs : list (list R)), (0 < size)%nat -> (forall b, In b bs -> length b = size) ->
  average (map average bs) = average (concat bs) /\ length (concat bs) = (length bs * size)%nat.
Proof.
  intros size bs Hs Hb.
  assert (E : Scaling_Spec.sum (concat bs) = INR size * Scaling_Spec.sum (map average bs) /\ length (concat bs) = (length bs * size)%nat).
  { induction bs as [|b bs IH]; [split; [cbn; unfold Scaling_Spec.sum; cbn; ring|reflexivity]|].
    destruct IH as [I1 I2]; [intros x Hx; apply Hb; now right|]. cbn [concat map length]. rewrite Scaling_Proofs.sum_app, I1, app_length, I2, (Hb b) by now left.
    split; [|lia]. change (Scaling_Spec.sum (average b :: map average bs)) with (average b + Scaling_Spec.sum (map average bs)).
    assert (Ea : average b = Scaling_Spec.sum b / INR size) by (unfold average; rewrite (Hb b) by (now left); reflexivity). rewrite Ea.
    assert (0 < INR size) by (apply lt_0_INR; lia). field. lra. }
  destruct E as [E1 E2]. split; [|exact E2]. unfold average at 1 3. rewrite E1, E2, map_length, mult_INR.
  assert (0 < INR size) by (apply lt_0_INR; lia). destruct bs as [|b bs]; [cbn; unfold Scaling_Spec.sum; cbn; unfold Rdiv; ring|].
  assert (0 < INR (length (b :: bs))) by (apply lt_0_INR; cbn [length]; lia). field. lra.
Qed.
Lemma batched_full : forall {A} size (l : list A) bs, (0 < size)%nat -> batched size l bs -> (length l mod size = 0)%nat -> forall b, In b bs -> length b = size.
Proof.
  intros A size l bs Hs H. induction H as [|b Hb|b rest bs Hb Hne H IH]; intros Hd x Hx.
  - destruct Hx.
  - destruct Hx as [<-|[]]. destruct (Nat.eq_dec (length b) size) as [|N]; [assumption|]. rewrite Nat.mod_small in Hd by lia. lia.
  - destruct Hx as [<-|Hx]; [exact Hb|]. apply IH; [|exact Hx]. rewrite app_length, Hb in Hd. rewrite <- Hd.
    replace (size + length rest)%nat with (length rest + 1 * size)%nat by lia. now rewrite Nat.mod_add by lia.
Qed.
