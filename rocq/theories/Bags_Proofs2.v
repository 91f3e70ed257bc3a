(** The recommended bias and offset for every fit. *)
From Coq Require Import List Arith Bool ZArith Permutation Sorted Lia.
From Coq Require Import ZifyBool ZifyNat.
From Verif Require Import Outcome Float32_Spec QuarterFloat_Model Bags_Model Bags_Spec Bags_Proofs.
Import ListNotations.
Local Open Scope Z_scope.

(** Twice the offset chosen with the values [v]. *)
Definition offset_of (f : fit) (require0 : bool) (W : Z) (v : values) : outcome Z :=
  match f, require0 with
  | For_80, true => do x <- at_index (eightyValues v) 1; Ok (2 * Z.min 0 x + W)
  | For_80, false => do x <- at_index (eightyValues v) 2; Ok (2 * x)
  | For_50, true => do x <- at_index (quarterValues v) 1; Ok (2 * Z.min 0 x + W)
  | For_50, false => do x <- at_index (quarterValues v) 2; Ok (2 * x)
  | For_100, true => do x <- at_index (eightyValues v) 0; Ok (2 * Z.min 0 x + W)
  | For_100, false => do x <- at_index (eightyValues v) 0; Ok (2 * x + W)
  end.

Lemma first_bias_search : forall t threads b f require0 W, let l := elements t in
  (forall bias, fill bias t threads = populate bias l) -> In b biases ->
  (forall b', In b' biases -> b <= b' -> exists v, bag (length (numbers l)) (populate b' l) = Ok v /\ range f require0 v = Ok W) ->
  (b <> -4 -> W <= 2 * half_width b) -> exists rb, first_bias f require0 (fun bias => fill bias t threads) [14; 8; 4; 1] (W) = Ok rb /\ In rb biases /\ b <= rb /\
    (rb = -4 \/ W <= 2 * half_width rb) /\ (forall b', In b' biases -> rb < b' -> 2 * half_width b' < W).
Proof.
  intros t threads b f require0 W l Ef Hb HV HW.
  assert (Hcheck : forall b', In b' biases -> b <= b' ->
    bagAndCheckRangeForBiasGoal f require0 (fun bias => fill bias t threads) b' (W) = Ok (W <=? 2 * half_width b')).
  { intros b' Hb' Hle. unfold bagAndCheckRangeForBiasGoal. rewrite !Ef, elementCount_populate. destruct (widths b' Hb') as (_ & _ & ->).
    destruct (Z.ltb_spec (2 * half_width b') (W)) as [Hlt|Hge].
    - f_equal. symmetry. apply Z.leb_gt. exact Hlt.
    - destruct (HV b' Hb' Hle) as (v & E & Er). rewrite E. cbn [obind]. rewrite Er. reflexivity. }
  { assert (Hstep : forall b0 rest, In b0 biases -> b <= b0 -> first_bias f require0 (fun bias => fill bias t threads) (b0 :: rest) (W) =
      if W <=? 2 * half_width b0 then Ok b0 else first_bias f require0 (fun bias => fill bias t threads) rest (W)).
    { intros b0 rest H0 Hle. cbn [first_bias]. rewrite Hcheck by assumption. reflexivity. }
    clear Hcheck Ef.
    rewrite Hstep by (unfold biases in *; cbn in *; lia).
    destruct (Z.leb_spec (W) (2 * half_width 14)) as [L14|G14].
    { exists 14. split; [reflexivity|]. split; [now left|]. split; [unfold biases in Hb; cbn in Hb; lia|]. split; [now right|].
      intros b' Hb' Hlt. unfold biases in Hb'; cbn in Hb'. lia. }
    assert (b <> 14) by (intros ->; specialize (HW ltac:(lia)); lia).
    rewrite Hstep by (unfold biases in *; cbn in *; lia).
    destruct (Z.leb_spec (W) (2 * half_width 8)) as [L8|G8].
    { exists 8. split; [reflexivity|]. split; [right; now left|]. split; [unfold biases in Hb; cbn in Hb; lia|]. split; [now right|].
      intros b' [<-|[<-|[<-|[<-|[<-|[]]]]]] Hlt; first [exact G14 | lia]. }
    assert (b <> 8) by (intros ->; specialize (HW ltac:(lia)); lia).
    rewrite Hstep by (unfold biases in *; cbn in *; lia).
    destruct (Z.leb_spec (W) (2 * half_width 4)) as [L4|G4].
    { exists 4. split; [reflexivity|]. split; [do 2 right; now left|]. split; [unfold biases in Hb; cbn in Hb; lia|]. split; [now right|].
      intros b' [<-|[<-|[<-|[<-|[<-|[]]]]]] Hlt; first [exact G14 | exact G8 | lia]. }
    assert (b <> 4) by (intros ->; specialize (HW ltac:(lia)); lia).
    rewrite Hstep by (unfold biases in *; cbn in *; lia).
    destruct (Z.leb_spec (W) (2 * half_width 1)) as [L1|G1].
    { exists 1. split; [reflexivity|]. split; [do 3 right; now left|]. split; [unfold biases in Hb; cbn in Hb; lia|]. split; [now right|].
      intros b' [<-|[<-|[<-|[<-|[<-|[]]]]]] Hlt; first [exact G14 | exact G8 | exact G4 | lia]. }
    assert (b <> 1) by (intros ->; specialize (HW ltac:(lia)); lia).
    exists (-4). split; [reflexivity|]. split; [do 4 right; now left|]. split; [unfold biases in Hb; cbn in Hb; lia|]. split; [now left|].
    intros b' [<-|[<-|[<-|[<-|[<-|[]]]]]] Hlt; first [exact G14 | exact G8 | exact G4 | exact G1 | lia]. }
Qed.
Lemma stats_search : forall t threads b f require0 W o, let l := elements t in
  Z.of_nat (rows t) * Z.of_nat (cols t) < 100000000 -> In b biases ->
  (b <> -4 -> forall x, In x (numbers l) -> Z.abs (f32_units x) <= half_width b) ->
  (forall b', In b' biases -> b <= b' -> exists v, bag (length (numbers l)) (populate b' l) = Ok v /\ range f require0 v = Ok W /\ offset_of f require0 W v = Ok o) ->
  (b <> -4 -> W <= 2 * half_width b) ->
  exists rb, TensorStats t f require0 threads = Ok (rb, o) /\ In rb biases /\
    (rb = -4 \/ W <= 2 * half_width rb) /\ (forall b', In b' biases -> rb < b' -> 2 * half_width b' < W).
Proof.
  intros t threads b f require0 W o l Hsmall Hb Hfit HV HW. unfold TensorStats, recommend. cbv zeta.
  assert (Ef : forall bias, fill bias t threads = populate bias l).
  { intros. unfold fill. destruct (Z.ltb_spec (Z.of_nat (rows t) * Z.of_nat (cols t)) 100000000); [reflexivity|lia]. }
  assert (Ew : wide_bias (fun bias => fill bias t threads) = wide_bias (fun bias => populate bias l)).
  { unfold wide_bias, spans. rewrite !Ef. reflexivity. }
  rewrite Ew, !Ef, elementCount_populate. destruct (wide_bias_range l b Hb Hfit) as [Hw Hbw].
  set (w := wide_bias (fun bias => populate bias l)) in *. clearbody w.
  destruct (HV w Hw Hbw) as (v & E & Er & _).
  rewrite E. cbn [obind]. rewrite Er. cbn [obind]. clear E Er v.
  destruct (first_bias_search t threads b f require0 W Ef Hb) as (rb & E & Hrb & Hle & Hr).
  { intros b' Hb' Hle. destruct (HV b' Hb' Hle) as (v & E & Er & _). exists v. auto. }
  { exact HW. }
  exists rb. rewrite E. cbn [obind]. rewrite Ef.
  destruct (HV rb Hrb Hle) as (v & Ev & _ & Eo). rewrite Ev. cbn [obind].
  unfold offset_of in Eo. rewrite Eo. split; [reflexivity|]. split; [exact Hrb|exact Hr].
Qed.
