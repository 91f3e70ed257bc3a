(** C50, C51, C68: batches, the epoch loss, the network that is kept, the time limit. *)
From Coq Require Import ZArith NArith List Arith Bool Lia Reals Lra.
From Flocq Require Import Core.Core IEEE754.Binary IEEE754.Bits.
From Verif Require Import Outcome F32_Model F32_Proofs Scaling_Spec Scaling_Proofs Exit_Model Exit_Spec Exit_Proofs Exit_Props Train_Model Train_Spec Train_Proofs Train_Loop.
Import ListNotations.
Local Open Scope nat_scope.

(** ** C50: batches *)
(** An epoch trains on every record once, in the given order, and updates the network after each
    full batch and after the last one, and only then; the network it gives is the result of that. *)
Theorem epoch_in_batches : forall {net rec F} (A : arith F) (W : network net rec F) size records w w' l tr, 0 < size ->
  epoch A W size records w = Ok (w', l, tr) ->
  exists batches losses, batched size records batches /\ tr = concat (map batch_events batches) /\ replays W w tr w' losses /\ length losses = length records.
Proof.
  intros net rec F A W size records w w' l tr Hs H. apply epoch_records_pure in H as (losses & L & R & E & _).
  destruct (batched_exists size records Hs) as [bs B]. exists bs, losses. split; [exact B|]. split; [|now split].
  rewrite E. now apply trace_batches.
Qed.
(** It always gets there when the operations on the network do not fail. *)
Theorem epoch_completes : forall {net rec F} (A : arith F) (W : network net rec F) size, 0 < size ->
  (forall w r, exists x, observe W w r = Ok x) -> (forall w, exists w', update W w = Ok w') ->
  forall records w, exists x, epoch A W size records w = Ok x.
Proof.
  intros net rec F A W size Hs Ho Hu records w. unfold epoch. generalize 0 at 1 as off. generalize (azero A) at 1 as bl. generalize (azero A) at 1 as el. generalize 0 as cur.
  revert w. induction records as [|r rest IH]; intros w cur el bl off; [eexists; reflexivity|]. cbn [epoch_records].
  destruct (Ho w r) as [[w1 x] E]. rewrite E. cbn [obind]. destruct (_ || _).
  - destruct (Nat.eqb_spec size 0) as [Z|Z]; [lia|]. cbn [obind]. destruct (Hu w1) as [w2 E2]. rewrite E2. cbn [obind].
    match goal with |- context [epoch_records A W size rest ?a ?b ?c ?d ?e] => destruct (IH a e d c b) as [[[w3 l3] t3] E3]; rewrite E3 end. eexists. reflexivity.
  - match goal with |- context [epoch_records A W size rest ?a ?b ?c ?d ?e] => destruct (IH a e d c b) as [[[w3 l3] t3] E3]; rewrite E3 end. eexists. reflexivity.
Qed.
(** The number of updates is the number of records divided by the batch size, rounded up. *)
Definition updates {rec} (tr : list (event rec)) : nat := length (filter (fun e => match e with Updated => true | Trained _ => false end) tr).
Theorem number_of_updates : forall {net rec F} (A : arith F) (W : network net rec F) size records w w' l tr, 0 < size ->
  epoch A W size records w = Ok (w', l, tr) -> (updates tr - 1) * size < length records + (if length records =? 0 then 1 else 0) /\ length records <= updates tr * size.
Proof.
  intros net rec F A W size records w w' l tr Hs H. destruct (epoch_in_batches _ _ _ _ _ _ _ _ Hs H) as (bs & losses & B & -> & _).
  assert (U : forall b : list rec, updates (batch_events b) = 1).
  { intros b. unfold updates, batch_events. rewrite filter_app, app_length. cbn. replace (filter _ (map Trained b)) with (@nil (event rec)); [reflexivity|].
    induction b as [|r b IHb]; [reflexivity|exact IHb]. }
  assert (Un : updates (concat (map batch_events bs)) = length bs).
  { clear - U. induction bs as [|b bs IH]; [reflexivity|]. cbn [map concat length]. unfold updates in *. rewrite filter_app, app_length. specialize (U b). rewrite U, IH. reflexivity. }
  rewrite Un. clear - B Hs. induction B as [|b Hb|b rest bs Hb Hne H IH].
  - cbn. lia.
  - cbn [length]. destruct (Nat.eqb_spec (length b) 0); lia.
  - rewrite app_length. cbn [length]. destruct (Nat.eqb_spec (length rest) 0) as [Z|Z]; [destruct rest; [contradiction|discriminate]|].
    destruct (Nat.eqb_spec (length b + length rest) 0); [lia|]. destruct bs as [|b' bs]; cbn [length] in *; [cbn in *; lia|]. split; nia.
Qed.
(** A batch size that is negative or larger than the number of records is refused, zero is undefined behaviour. *)
Theorem bad_batch_size : forall {net rec} (W : network net rec binary32) s use_test retention order duration fuel batch records w p,
  (batch < 0)%Z \/ (Z.of_nat records < batch)%Z -> train W s use_test retention order duration fuel batch records w p = Throw.
Proof.
  intros net rec W s use_test retention order duration fuel batch records w p H. unfold train.
  assert (E : Z.ltb batch 0 || Z.ltb (Z.of_nat records) batch = true) by (apply orb_true_iff; rewrite !Z.ltb_lt; exact H). now rewrite E.
Qed.
Theorem batch_size_zero_refuted : forall {net rec F} (A : arith F) (W : network net rec F) r rest w x, observe W w r = Ok x ->
  epoch A W 0 (r :: rest) w = UB.
Proof. intros net rec F A W r rest w [w1 l] E. unfold epoch. cbn [epoch_records]. rewrite E. reflexivity. Qed.

(** In exact arithmetic the loss of an epoch is the average of the losses of the records if the batch
    size divides their number. *)
Theorem epoch_loss_average_partial : forall {net rec} (W : network net rec R) size records w w' l tr, 0 < size -> length records mod size = 0 ->
  epoch real_arith W size records w = Ok (w', l, tr) ->
  exists losses, replays W w tr w' losses /\ l = average losses.
Proof.
  intros net rec W size records w w' l tr Hs Hd H. apply epoch_records_pure in H as (losses & L & R & E & Hl). exists losses. split; [exact R|].
  destruct (batched_exists size losses Hs) as [lb B]. rewrite <- L in Hd. pose proof (fold_divides size losses lb Hs B Hd []) as Hf. cbn [length app] in Hf.
  assert (Z : average [] = 0%R) by (unfold average, Scaling_Spec.sum; cbn; unfold Rdiv; ring). rewrite Z in Hf. cbn [azero real_arith] in Hl. cbn [Nat.mul] in Hf. rewrite Hl, Hf.
  destruct (average_batches size lb Hs (batched_full size losses lb Hs B Hd)) as [-> _]. now rewrite (batched_concat _ _ _ B).
Qed.
(** Otherwise the last, smaller batch counts as the second of two when it is the third of three, and so
    on: with [k] full batches of average loss [M] and the average [p] of the rest the epoch loss is
    [M + (p - M) / k]; it is the average of the losses only if [p = M].  With one full batch the loss is
    [p]: the full batch does not count at all. *)
Theorem epoch_loss_last_batch_refuted : forall {net rec} (W : network net rec R) size records w w' l tr, 0 < size -> length records mod size <> 0 -> size <= length records ->
  epoch real_arith W size records w = Ok (w', l, tr) ->
  exists losses, replays W w tr w' losses /\ length losses = length records /\
    let k := length records / size in
    let M := average (firstn (k * size) losses) in
    let p := average (skipn (k * size) losses) in
    (l = M + (p - M) / INR k /\ (l = average losses <-> p = M))%R.
Proof.
  intros net rec W size records w w' l tr Hs Hd Hn H. apply epoch_records_pure in H as (losses & L & R & E & Hl). exists losses. split; [exact R|]. split; [exact L|].
  rewrite <- L in *. destruct (batched_exists size losses Hs) as [lb B]. destruct (fold_partial size losses lb Hs B Hd) as (full & p & -> & Hf & Hp & Ef). specialize (Ef []).
  cbn [length app Nat.mul Nat.add] in Ef. assert (Z : average [] = 0%R) by (unfold average, Scaling_Spec.sum; cbn; unfold Rdiv; ring). rewrite Z in Ef. cbn [azero real_arith] in Hl.
  destruct (average_batches size full Hs Hf) as [Ea Elen]. pose proof (batched_concat _ _ _ B) as Ec. rewrite concat_app in Ec. cbn [concat] in Ec. rewrite app_nil_r in Ec.
  assert (Ek : length losses / size = length full).
  { rewrite <- Ec, app_length, Elen, Nat.add_comm, Nat.div_add by lia. rewrite Nat.div_small by lia. reflexivity. }
  rewrite Ek. cbv zeta. assert (E1 : firstn (length full * size) losses = concat full) by (rewrite <- Ec, <- Elen; rewrite firstn_app, firstn_all, Nat.sub_diag; cbn [firstn]; apply app_nil_r).
  assert (E2 : skipn (length full * size) losses = p) by (rewrite <- Ec, <- Elen; rewrite skipn_app, skipn_all, Nat.sub_diag; reflexivity).
  rewrite E1, E2, <- Ea. assert (Kpos : 0 < length full) by (rewrite <- Ek; apply Nat.div_str_pos; lia).
  split; [now rewrite Hl|]. rewrite Hl, Ef.
  assert (Es : average losses = ((INR (length full * size) * average (map average full) + INR (length p) * average p) / INR (length full * size + length p))%R).
  { rewrite <- Ec. unfold average at 1. rewrite sum_app, app_length, Elen, Ea. unfold average at 1 2. rewrite Elen.
    assert (0 < INR (length full * size))%R by (apply lt_0_INR; nia). assert (0 < INR (length p))%R by (apply lt_0_INR; lia).
    assert (0 < INR (length full * size + length p))%R by (rewrite plus_INR; lra). field. lra. }
  rewrite Es. set (M := average (map average full)). set (P := average p). rewrite plus_INR, mult_INR.
  assert (Hk : (1 <= INR (length full))%R) by (change 1%R with (INR 1); apply le_INR; lia).
  assert (Hm : (0 < INR (length p))%R) by (apply lt_0_INR; lia).
  assert (Hsz : (INR (length p) < INR size)%R) by (apply lt_INR; lia).
  set (k := INR (length full)) in *. set (m := INR (length p)) in *. set (z := INR size) in *. clearbody M P k m z. clear - Hk Hm Hsz.
  assert (Pkz : (0 < k * z)%R) by (apply Rmult_lt_0_compat; lra). assert (Pkm : (k * m < k * z)%R) by (apply Rmult_lt_compat_l; lra).
  split.
  - intros G. assert (G2 : ((P - M) * (k * z + m) = (P - M) * (m * k))%R).
    { transitivity (((M + (P - M) / k) - M) * k * (k * z + m))%R; [field; lra|]. rewrite G. field. lra. }
    assert (G3 : ((P - M) * (k * z + m - m * k) = 0)%R) by lra. apply Rmult_integral in G3 as [G3|G3]; lra.
  - intros ->. field. lra.
Qed.

(** ** C51: the network that is kept *)
(** Training ends at the first epoch the exit strategy says so; with the best policy the network is the
    one after the epoch with the lowest test loss, the first one if there are several. *)
Theorem best_network_kept : forall {net rec} (W : network net rec binary32) s use_test order duration fuel batch records w w' r,
  train W s use_test Best order duration fuel batch records w start = Ok (Some (w', r)) ->
  exists N nets training testing e, trajectory W (Z.to_nat batch) use_test order w N nets training testing /\
    done_at s start (from_one testing) (from_one duration) N = Ok true /\ (forall j, 1 <= j < N -> done_at s start (from_one testing) (from_one duration) j = Ok false) /\
    first_lowest testing N e /\ w' = nets e /\ final_test_loss r = testing e /\ epochs r = e.
Proof.
  intros net rec W s use_test order duration fuel batch records w w' r H. unfold train in H. destruct (_ || _); [discriminate|].
  set (st0 := {| current := w; lowest := infinity; lowest_epoch := 0; checkpoint := None; report := new_result; exit := start |}) in H.
  destruct (rounds W s (Z.to_nat batch) use_test Best order duration fuel 0 st0) as [[st|]| |] eqn:Er; try discriminate. cbn [obind] in H.
  assert (S0 : so_far W s (Z.to_nat batch) use_test Best order duration w start (fun _ => w) (fun _ => infinity) (fun _ => infinity) 0 st0).
  { split; [intros j Hj; lia|]. split; [reflexivity|]. split; [reflexivity|]. split; [|reflexivity]. left. repeat split; intros; lia. }
  destruct (rounds_end _ _ _ _ _ _ _ _ _ _ _ _ _ _ _ _ S0 ltac:(intros j Hj; lia) Er) as (N & nets & training & testing & HN & (Ht & Hc & Ha & Hk & Hr) & Hd & Hf).
  unfold finish in H. destruct Hk as [(K1 & K2 & K3 & K4)|(b & B & K1 & K2 & K3 & K4 & _)]; [rewrite K3 in H; discriminate|].
  rewrite K4 in H by reflexivity. cbn [obind] in H. injection H as <- <-. exists N, nets, training, testing, b. repeat (split; try assumption).
Qed.
Lemma lowest_unique : forall testing N e b, first_lowest testing N e -> first_lowest testing N b -> e = b.
Proof.
  intros testing N e b (E1 & E2 & E3 & E4) (B1 & B2 & B3 & B4).
  assert (Q : forall x y, flt x infinity = true -> flt y infinity = true -> flt x y = false -> fle y x = true).
    { intros x y X Y G. destruct (flt_number _ _ X) as [Nx _]. destruct (flt_number _ _ Y) as [Ny _]. apply fle_order; try assumption.
      destruct (Rle_or_lt (Reduce_Spec.order y) (Reduce_Spec.order x)) as [|L]; [assumption|]. apply (Reduce_Proofs.flt_order x y Nx Ny) in L. congruence. }
    destruct (lt_eq_lt_dec e b) as [[G|G]|G]; [|exact G|]; exfalso.
    - specialize (B4 e G). rewrite (Q _ _ B2 E2 (E3 b B1)) in B4. discriminate.
    - specialize (E4 b G). rewrite (Q _ _ E2 B2 (B3 e E1)) in E4. discriminate.
Qed.
(** With the last policy it is the network after the last epoch; but the reported test loss and number
    of the epoch are still those of the epoch with the lowest test loss. *)
Theorem last_network_kept : forall {net rec} (W : network net rec binary32) s use_test order duration fuel batch records w w' r,
  train W s use_test Last order duration fuel batch records w start = Ok (Some (w', r)) ->
  exists N nets training testing, 0 < N /\ trajectory W (Z.to_nat batch) use_test order w N nets training testing /\
    done_at s start (from_one testing) (from_one duration) N = Ok true /\ (forall j, 1 <= j < N -> done_at s start (from_one testing) (from_one duration) j = Ok false) /\
    w' = nets (N - 1) /\ (forall e, first_lowest testing N e -> final_test_loss r = testing e /\ epochs r = e).
Proof.
  intros net rec W s use_test order duration fuel batch records w w' r H. unfold train in H. destruct (_ || _); [discriminate|].
  set (st0 := {| current := w; lowest := infinity; lowest_epoch := 0; checkpoint := None; report := new_result; exit := start |}) in H.
  destruct (rounds W s (Z.to_nat batch) use_test Last order duration fuel 0 st0) as [[st|]| |] eqn:Er; try discriminate. cbn [obind] in H.
  assert (S0 : so_far W s (Z.to_nat batch) use_test Last order duration w start (fun _ => w) (fun _ => infinity) (fun _ => infinity) 0 st0).
  { split; [intros j Hj; lia|]. split; [reflexivity|]. split; [reflexivity|]. split; [|reflexivity]. left. repeat split; intros; lia. }
  destruct (rounds_end _ _ _ _ _ _ _ _ _ _ _ _ _ _ _ _ S0 ltac:(intros j Hj; lia) Er) as (N & nets & training & testing & HN & (Ht & Hc & Ha & Hk & Hr) & Hd & Hf).
  unfold finish in H. injection H as <- <-. exists N, nets, training, testing. split; [exact HN|]. split; [exact Ht|]. split; [exact Hd|]. split; [exact Hf|].
  split. { clear - Hc HN. destruct N as [|N']; [lia|]. replace (S N' - 1) with N' by lia. exact Hc. }
  intros e (E1 & E2 & E3 & E4). destruct Hk as [(K1 & K2 & K3 & K4)|(b & (B1 & B2 & B3 & B4) & K1 & K2 & K3 & _)]; [rewrite (K4 e E1) in E2; discriminate|].
  assert (e = b) by (apply (lowest_unique testing N); repeat (split; try assumption)).
  subst e. now split.
Qed.
(** What is reported about training: the first and the lowest training loss; [trained] says that some epoch's
    training loss is below the first one's, [generalized] that this was so by the epoch with the lowest test loss. *)
(** Partial, C70: the best policy; for the last policy it is refuted. *)
Theorem training_report_partial : forall {net rec} (W : network net rec binary32) s use_test retention order duration fuel batch records w w' r,
  train W s use_test retention order duration fuel batch records w start = Ok (Some (w', r)) ->
  exists N nets training testing, 0 < N /\ trajectory W (Z.to_nat batch) use_test order w N nets training testing /\
    done_at s start (from_one testing) (from_one duration) N = Ok true /\ (forall j, 1 <= j < N -> done_at s start (from_one testing) (from_one duration) j = Ok false) /\
    initial_train_loss r = training 0 /\ lowest_of training N (best_train_loss r) /\
    (trained r = true <-> exists j, j < N /\ flt (training j) (training 0) = true) /\
    (forall b, first_lowest testing N b -> (generalized r = true <-> exists j, j <= b /\ flt (training j) (training 0) = true)).
Proof.
  intros net rec W s use_test retention order duration fuel batch records w w' r H. unfold train in H. destruct (_ || _); [discriminate|].
  set (st0 := {| current := w; lowest := infinity; lowest_epoch := 0; checkpoint := None; report := new_result; exit := start |}) in H.
  destruct (rounds W s (Z.to_nat batch) use_test retention order duration fuel 0 st0) as [[st|]| |] eqn:Er; try discriminate. cbn [obind] in H.
  assert (S0 : so_far W s (Z.to_nat batch) use_test retention order duration w start (fun _ => w) (fun _ => infinity) (fun _ => infinity) 0 st0).
  { split; [intros j Hj; lia|]. split; [reflexivity|]. split; [reflexivity|]. split; [|reflexivity]. left. repeat split; intros; lia. }
  destruct (rounds_end _ _ _ _ _ _ _ _ _ _ _ _ _ _ _ _ S0 ltac:(intros j Hj; lia) Er) as (N & nets & training & testing & HN & (Ht & Hc & Ha & Hk & Hr) & Hd & Hf).
  assert (R : r = report st).
  { unfold finish in H. destruct retention; [|now injection H]. destruct (checkpoint st); [now injection H|discriminate]. }
  subst r. exists N, nets, training, testing. split; [exact HN|]. split; [exact Ht|]. split; [exact Hd|]. split; [exact Hf|]. destruct N as [|N']; [lia|]. destruct Hr as (R1 & R2 & _ & R4). split; [exact R1|]. split; [exact R2|]. split; [exact R4|].
  intros e Fe. destruct Hk as [(K1 & K2 & K3 & K4)|(b & B & K1 & K2 & K3 & _ & K5)]; [destruct Fe as (E1 & E2 & _); rewrite (K4 e E1) in E2; discriminate|].
  now rewrite (lowest_unique testing (S N') e b Fe B).
Qed.
(** The last policy's report is about a network that is not the one returned: there are trainings whose
    reported loss is lower than that of the returned network. *)
Definition walk_net : network nat unit binary32 :=
  {| observe := fun w _ => Ok (w, of_bits 0x3F800000); update := fun w => Ok (S w);
     measure := fun w => Ok (match w with 1 => of_bits 0x3E800000 | _ => of_bits 0x3F000000 end) |}.
Definition two_epochs : settings := {| patience := 100; maxElapsedTime := 60000; maxEpochs := 2; zeroPrecisionTolerance := of_bits 0;
  improvementTolerance := of_bits 0; minEpochs := 1; maxDegradationTolerance := of_bits 0x41200000 |}.
Theorem last_policy_report_refuted : exists r, train walk_net two_epochs true Last (fun _ => [tt]) (fun _ => 1%Z) 5 1 1 0 start = Ok (Some (2, r)) /\
  to_bits (final_test_loss r) = 0x3E800000%N /\ (exists l, measure walk_net 2 = Ok l /\ to_bits l = 0x3F000000%N).
Proof. eexists. split; [reflexivity|]. split; [reflexivity|]. eexists. split; reflexivity. Qed.
(** A training whose test losses are all infinite or not numbers has no network to return. *)
Theorem no_best_network_refuted : forall {net rec} (W : network net rec binary32) s order duration fuel batch records w,
  (forall w l, measure W w = Ok l -> flt l infinity = false) ->
  forall x, train W s true Best order duration fuel batch records w start <> Ok (Some x).
Proof.
  intros net rec W s order duration fuel batch records w H [w' r] E. apply best_network_kept in E as (N & nets & training & testing & e & T & _ & _ & (L & L2 & _) & _).
  destruct (T e L) as [_ M]. rewrite (H _ _ M) in L2. discriminate.
Qed.
(** Training is over after the maximum number of epochs at the latest (or the minimum, or one). *)
Theorem training_terminates : forall {net rec} (W : network net rec binary32) s use_test retention order duration batch records w fuel, sensible s ->
  Nat.max 1 (Nat.max (minEpochs s) (maxEpochs s)) <= fuel -> train W s use_test retention order duration fuel batch records w start <> Ok None.
Proof.
  intros net rec W s use_test retention order duration batch records w fuel Hs Hf H. unfold train in H. destruct (_ || _); [discriminate|].
  set (st0 := {| current := w; lowest := infinity; lowest_epoch := 0; checkpoint := None; report := new_result; exit := start |}) in H.
  destruct (rounds W s (Z.to_nat batch) use_test retention order duration fuel 0 st0) as [[st|]| |] eqn:Er; try discriminate; cbn [obind] in H.
  { destruct (finish retention st); discriminate. }
  assert (S0 : so_far W s (Z.to_nat batch) use_test retention order duration w start (fun _ => w) (fun _ => infinity) (fun _ => infinity) 0 st0).
  { split; [intros j Hj; lia|]. split; [reflexivity|]. split; [reflexivity|]. split; [|reflexivity]. left. repeat split; intros; lia. }
  destruct (rounds_not_over _ _ _ _ _ _ _ _ _ _ _ _ _ _ _ S0 ltac:(intros j Hj; lia) Er) as [t Ht].
  destruct (training_ends s (from_one t) (from_one duration) Hs) as (N & N1 & N2 & Hd & _). rewrite Ht in Hd by lia. discriminate.
Qed.

(** ** C68: the time limit *)
(** Training can go on long after the time limit: if every epoch takes less time than the limit then
    the limit never has an effect, however many epochs there are. *)
Fixpoint total (d : nat -> Z) (N : nat) : Z := match N with 0 => 0%Z | S N => (total d N + d N)%Z end.
Definition slow_settings (M : nat) : settings := {| patience := M; maxElapsedTime := 2000; maxEpochs := M; zeroPrecisionTolerance := of_bits 0;
  improvementTolerance := of_bits 0; minEpochs := 1; maxDegradationTolerance := of_bits 0x3F800000 |}.
Definition flat_net : network nat unit binary32 :=
  {| observe := fun w _ => Ok (w, of_bits 0x3F800000); update := fun w => Ok (S w); measure := fun w => Ok (of_bits 0x3F800000) |}.
Definition one_second (_ : nat) : Z := 1000%Z.
Lemma flat_rounds : forall M fuel e st, e < M -> M - e <= fuel -> lowest st = of_bits 0x3F800000 -> exit st = {| lowestLoss := of_bits 0x3F800000; lowestLossEpoch := e |} -> 0 < e ->
  current st = e -> exists st', rounds flat_net (slow_settings M) 1 true Last (fun _ => [tt]) one_second fuel e st = Ok (Some st') /\ current st' = M.
Proof.
  intros M fuel. induction fuel as [|fuel IH]; intros e st He Hf Hl Hx He0 Hc; [lia|]. cbn [rounds]. unfold round.
  assert (Ee : exists x, epoch float_arith flat_net 1 [tt] (current st) = Ok (S e, x, [Trained tt; Updated])).
  { rewrite Hc. unfold epoch. cbn [epoch_records observe update flat_net obind Nat.leb orb Nat.eqb]. cbv zeta. eexists. reflexivity. }
  destruct Ee as [x Ee].
  rewrite Ee. cbn [obind measure flat_net]. cbv zeta. rewrite Hl.
  assert (F : flt (of_bits 0x3F800000) (of_bits 0x3F800000) = false) by reflexivity. rewrite F. cbn [exit current lowest lowest_epoch checkpoint report]. rewrite Hx.
  assert (Ed : isDone (slow_settings M) {| lowestLoss := of_bits 0x3F800000; lowestLossEpoch := e |} (S e) (of_bits 0x3F800000) (one_second e) =
    Ok ({| lowestLoss := of_bits 0x3F800000; lowestLossEpoch := S e |}, Nat.leb M (S e))).
  { unfold isDone. cbn [lowestLoss lowestLossEpoch slow_settings improvementTolerance].
    assert (G1 : fle (fadd (of_bits 0x3F800000) (of_bits 0)) (of_bits 0x3F800000) = true) by reflexivity. rewrite G1. cbn [obind lowestLossEpoch slow_settings minEpochs maxEpochs patience maxElapsedTime zeroPrecisionTolerance maxDegradationTolerance].
    assert (G2 : fmin (of_bits 0x3F800000) (of_bits 0x3F800000) = of_bits 0x3F800000) by reflexivity. rewrite G2.
    assert (G3 : fge (degradation (of_bits 0x3F800000) {| lowestLoss := of_bits 0x3F800000; lowestLossEpoch := S e |}) (of_bits 0x3F800000) = false) by (vm_compute; reflexivity). rewrite G3.
    assert (G4 : fle (of_bits 0x3F800000) (of_bits 0) = false) by reflexivity. rewrite G4. rewrite Nat.sub_diag.
    assert (G5 : Nat.leb M 0 = false) by (apply Nat.leb_gt; lia). rewrite G5. cbn [Nat.leb andb one_second].
    assert (G6 : Z.leb 2000 1000 = false) by reflexivity. unfold one_second. rewrite G6. rewrite !orb_false_r. reflexivity. }
  rewrite Ed. cbn [obind]. destruct (Nat.leb_spec M (S e)) as [L|L].
  - eexists. split; [reflexivity|]. cbn [current]. lia.
  - apply IH; try reflexivity; try lia.
Qed.
Theorem time_limit_refuted : forall M, 1 <= M -> exists r,
  train flat_net (slow_settings M) true Last (fun _ => [tt]) one_second (S M) 1 1 0 start = Ok (Some (M, r)) /\
  maxElapsedTime (slow_settings M) = 2000%Z /\ total one_second M = (1000 * Z.of_nat M)%Z.
Proof.
  intros M HM.
  assert (T : total one_second M = (1000 * Z.of_nat M)%Z). { clear HM. induction M as [|M IH]; [reflexivity|]. cbn [total]. rewrite IH. unfold one_second. lia. }
  set (st0 := {| current := 0; lowest := infinity; lowest_epoch := 0; checkpoint := None; report := new_result; exit := start |}).
  assert (E : exists st', rounds flat_net (slow_settings M) 1 true Last (fun _ => [tt]) one_second (S M) 0 st0 = Ok (Some st') /\ current st' = M).
  { cbn [rounds]. unfold round. subst st0. cbn [current].
    assert (Ee : exists x, epoch float_arith flat_net 1 [tt] 0 = Ok (1, x, [Trained tt; Updated])).
    { unfold epoch. cbn [epoch_records observe update flat_net obind Nat.leb orb Nat.eqb]. cbv zeta. eexists. reflexivity. }
  destruct Ee as [x Ee].
    rewrite Ee. cbn [obind measure flat_net lowest]. cbv zeta.
    assert (F : flt (of_bits 0x3F800000) infinity = true) by reflexivity. rewrite F. cbn [exit current lowest lowest_epoch checkpoint report].
    assert (Ed : isDone (slow_settings M) start 1 (of_bits 0x3F800000) (one_second 0) = Ok ({| lowestLoss := of_bits 0x3F800000; lowestLossEpoch := 1 |}, Nat.leb M 1)).
    { unfold isDone, start. cbn [lowestLoss lowestLossEpoch slow_settings improvementTolerance].
      assert (G1 : fle (fadd (of_bits 0x3F800000) (of_bits 0)) infinity = true) by reflexivity. rewrite G1. cbn [obind lowestLossEpoch slow_settings minEpochs maxEpochs patience maxElapsedTime zeroPrecisionTolerance maxDegradationTolerance].
      assert (G2 : fmin (of_bits 0x3F800000) infinity = of_bits 0x3F800000) by reflexivity. rewrite G2.
      assert (G3 : fge (degradation (of_bits 0x3F800000) {| lowestLoss := of_bits 0x3F800000; lowestLossEpoch := 1 |}) (of_bits 0x3F800000) = false) by (vm_compute; reflexivity). rewrite G3.
      assert (G4 : fle (of_bits 0x3F800000) (of_bits 0) = false) by reflexivity. rewrite G4.
      assert (G5 : Nat.leb M (1 - 1) = false) by (apply Nat.leb_gt; lia). rewrite G5.
      assert (G6 : Z.leb 2000 1000 = false) by reflexivity. unfold one_second. rewrite G6. rewrite !orb_false_r. reflexivity. }
    rewrite Ed. cbn [obind]. destruct (Nat.leb_spec M 1) as [L|L].
    - eexists. split; [reflexivity|]. cbn [current]. lia.
    - apply flat_rounds; try reflexivity; try lia. }
  destruct E as (st' & E & C). exists (report st'). split; [|split; [reflexivity|exact T]]. unfold train. change (Z.to_nat 1) with 1. cbn [Z.ltb Z.of_nat Z.compare orb Pos.of_succ_nat Pos.compare Pos.compare_cont].
  fold st0. rewrite E. cbn [obind finish]. now rewrite C.
Qed.

(** ** Examples *)
(** Five records in batches of two. *)
Definition count_net : network nat nat R := {| observe := fun w r => Ok (w, INR r); update := fun w => Ok (S w); measure := fun w => Ok 0%R |}.
Example ex_epoch : exists l, epoch real_arith count_net 2 [1; 2; 3; 4; 5] 0 = Ok (3, l, [Trained 1; Trained 2; Updated; Trained 3; Trained 4; Updated; Trained 5; Updated]).
Proof. eexists. reflexivity. Qed.
Example ex_five_mod : 5 mod 2 <> 0 /\ 2 <= 5.
Proof. split; [discriminate|lia]. Qed.
(** Its loss is 3.75 rather than 3. *)
Example ex_epoch_loss : exists w tr, epoch real_arith count_net 2 [1; 2; 3; 4; 5] 0 = Ok (w, 3.75%R, tr).
Proof.
  eexists. eexists. unfold epoch. cbn [epoch_records count_net observe update obind Nat.leb orb Nat.eqb]. cbv zeta. apply f_equal. apply f_equal2; [|reflexivity]. apply f_equal2; [reflexivity|].
  cbn [real_arith aadd asub adiv aof_nat azero]. change (2 / 2) with 1. change (4 / 2) with 2. change (5 / 2) with 2. cbn [INR]. lra.
Qed.
(** Training for two epochs keeps the network after the first. *)
Example ex_best_kept : exists r, train walk_net two_epochs true Best (fun _ => [tt]) (fun _ => 1%Z) 5 1 1 0 start = Ok (Some (1, r)).
Proof. eexists. reflexivity. Qed.
Example ex_two_sensible : sensible two_epochs.
Proof. split; [reflexivity|]. cbn. lra. Qed.

Print Assumptions epoch_in_batches.
Print Assumptions epoch_completes.
Print Assumptions number_of_updates.
Print Assumptions bad_batch_size.
Print Assumptions batch_size_zero_refuted.
Print Assumptions epoch_loss_average_partial.
Print Assumptions epoch_loss_last_batch_refuted.
Print Assumptions best_network_kept.
Print Assumptions last_network_kept.
Print Assumptions training_report_partial.
Print Assumptions last_policy_report_refuted.
Print Assumptions no_best_network_refuted.
Print Assumptions training_terminates.
Print Assumptions time_limit_refuted.
