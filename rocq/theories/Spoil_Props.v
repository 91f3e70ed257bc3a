(** C118: what a value that is not a number does to training. *)
From Coq Require Import List Arith ZArith Reals Lia Lra.
From Flocq Require Import Core IEEE754.BinarySingleNaN IEEE754.Binary IEEE754.Bits.
From Verif Require Import Outcome F32_Model Tensor_Model Scaling_Model Reduce_Model FloatNet_Model FloatNet_Spec FloatOpt_Model FloatLoss_Model FloatScale_Model FloatStat_Props Spoil_Model Spoil_Spec Spoil_Proofs.
From Verif Require FloatAct_Proofs.
Import ListNotations.

(** Whatever the optimizer, the learning rate and what it has kept: if one of the gradients of a parameter, or the parameter, is NaN or infinite, the
    parameter is not a number after it, whatever gradients come before and after. *)
Theorem bad_gradient_is_never_forgotten : forall powf lr c before g after, ~ is_number g \/ ~ is_number (parameter c) ->
  ~ is_number (parameter (float_adam powf lr c (before ++ g :: after))) /\
  ~ is_number (parameter (float_momentum lr c (before ++ g :: after))) /\
  ~ is_number (fold_left (float_descent_step lr) (before ++ g :: after) (parameter c)).
Proof.
  intros powf lr c before g after H. unfold float_adam, float_momentum. rewrite !fold_left_app. cbn [fold_left].
  assert (K : forall (A : Type) (step : A -> F -> A) (w : A -> F), (forall s y, ~ is_number (w s) \/ ~ is_number y -> ~ is_number (w (step s y))) -> forall l s, ~ is_number (w s) -> ~ is_number (w (fold_left step l s))).
  { intros A step w Hs l. induction l as [|y l IH]; intros s Ns; [exact Ns|]. cbn [fold_left]. apply IH. apply Hs. now left. }
  assert (G : forall (A : Type) (step : A -> F -> A) (w : A -> F) s, (forall s y, ~ is_number (w s) \/ ~ is_number y -> ~ is_number (w (step s y))) -> ~ is_number g \/ ~ is_number (w s) -> ~ is_number (w (fold_left step after (step (fold_left step before s) g)))).
  { intros A step w s Hs D. apply K; [exact Hs|]. apply Hs. destruct D as [D|D]; [now right|left]. now apply K. }
  split; [|split].
  - apply (G cell (float_adam_step powf lr) parameter c); [intros s y; apply adam_spoiled|exact H].
  - apply (G cell (float_momentum_step lr) parameter c); [intros s y; apply momentum_spoiled|exact H].
  - apply (G F (float_descent_step lr) (fun w => w) (parameter c)); [intros s y; apply descent_spoiled|exact H].
Qed.
Print Assumptions bad_gradient_is_never_forgotten.

(** One value of a record that is not a number: every output for this record is not a number. After training with it no weight of the layer is a
    number, whatever records come before and after, and neither is any output for any record. *)
Theorem bad_record_spoils_layer : forall powf lr w n m before x truth after j v, readable w n m -> Forall (fits n m) before -> Forall (fits n m) after -> fits n m (x, truth) ->
  j < n -> get x 0 j 0 = Ok v -> ~ is_number v ->
  (exists p, linear_forward w x = Ok p /\ spoiled p 1 m) /\
  exists w', train_records powf lr w (before ++ (x, truth) :: after) = Ok w' /\ spoiled w' n m /\ forall y, readable y 1 n -> exists p, linear_forward w' y = Ok p /\ spoiled p 1 m.
Proof.
  intros powf lr w n m before x truth after j v Rw Fb Fa Fx Hj Ev Nv. split.
  - destruct (forward_spoiled w x n m (proj1 Fx) Rw) as (p & E & _ & S). exists p. split; [exact E|]. apply S. left. exists j, v. tauto.
  - destruct (records_spoiled powf lr n m before w Fb Rw) as (w1 & E1 & R1 & _). destruct (record_spoiled powf lr w1 (x, truth) n m Fx R1) as (w2 & E2 & R2 & S2). destruct (records_spoiled powf lr n m after w2 Fa R2) as (w3 & E3 & R3 & S3).
    assert (S : spoiled w3 n m) by (apply S3, S2; left; exists j, v; tauto). exists w3. split; [|split; [exact S|]].
    + rewrite train_app, E1. cbn [obind train_records]. rewrite E2. exact E3.
    + intros y Ry. destruct (forward_spoiled w3 y n m Ry R3) as (p & E & _ & Sp). exists p. split; [exact E|]. apply Sp. right. split; [lia|exact S].
Qed.
Print Assumptions bad_record_spoils_layer.

(** Finding: so a dataset with a column whose numbers are all the same trains no such layer. *)
Theorem constant_column_spoils_layer : forall powf lr w n m before x truth after j tensors z, readable w n m -> Forall (fits n m) before -> Forall (fits n m) after -> fits n m (x, truth) ->
  Forall (Forall is_number) tensors -> (Z.of_nat (length (concat tensors)) < 9007199254740992)%Z -> (forall y z, In y (concat tensors) -> In z (concat tensors) -> number y = number z) -> In z (concat tensors) ->
  j < n -> get x 0 j 0 = Ok (scale float32 (column_metadata tensors) z) ->
  exists w', train_records powf lr w (before ++ (x, truth) :: after) = Ok w' /\ spoiled w' n m.
Proof.
  intros powf lr w n m before x truth after j ts z Rw Fb Fa Fx Ft HL Same Iz Hj Ev. pose proof (float_constant_column_is_lost ts z Ft HL Same Iz) as N.
  destruct (bad_record_spoils_layer powf lr w n m before x truth after j (scale float32 (column_metadata ts) z)) as (_ & w' & E & S & _); try assumption; [|now exists w'].
  unfold is_number. destruct (scale float32 (column_metadata ts) z); try discriminate N. discriminate.
Qed.
Print Assumptions constant_column_spoils_layer.

(** An activation function does not stop it: NaN stays NaN, if [expf] and [tanhf] of NaN are NaN. *)
Theorem nan_passes_activations : forall lib x, is_NaN x -> (forall y, is_NaN y -> is_NaN (expf lib y)) -> (forall y, is_NaN y -> is_NaN (tanhf lib y)) ->
  is_NaN (float_relu x) /\ is_NaN (float_leaky x) /\ is_NaN (float_sigmoid lib x) /\ is_NaN (float_sigmoid_approx x) /\ is_NaN (float_tanh lib x) /\ is_NaN (float_tanh_approx lib x).
Proof.
  intros lib x Hx He Ht. assert (Add : forall a y, is_NaN y -> is_NaN (fadd a y)) by (intros a y Hy; destruct y; try discriminate Hy; destruct a; reflexivity). assert (Mul : forall a y, is_NaN y -> is_NaN (fmul a y)) by (intros a y Hy; destruct y; try discriminate Hy; destruct a; reflexivity).
  assert (Div : forall a y, is_NaN y -> is_NaN (fdiv a y)) by (intros a y Hy; destruct y; try discriminate Hy; destruct a; reflexivity). assert (Divl : forall a y, is_NaN y -> is_NaN (fdiv y a)) by (intros a y Hy; destruct y; try discriminate Hy; destruct a; reflexivity).
  assert (Addl : forall a y, is_NaN y -> is_NaN (fadd y a)) by (intros a y Hy; destruct y; try discriminate Hy; destruct a; reflexivity). assert (Subl : forall a y, is_NaN y -> is_NaN (fsub y a)) by (intros a y Hy; destruct y; try discriminate Hy; destruct a; reflexivity).
  split; [|split; [|split; [|split; [|split]]]].
  - unfold float_relu, std_max. destruct x; try discriminate Hx. reflexivity.
  - unfold float_leaky. apply Add. apply Mul. exact Hx.
  - unfold float_sigmoid. apply Div, Add, He, Mul, Hx.
  - unfold float_sigmoid_approx. apply Mul, Addl, Divl, Hx.
  - unfold float_tanh. apply Ht, Hx.
  - unfold float_tanh_approx. apply Subl, Mul, Div, Add, He, Mul, Mul, Hx.
Qed.
Print Assumptions nan_passes_activations.

(** Two inputs, of which the second is the number of a column 7, 7; one output; weights 1 and 0. *)
Definition row (a b : F) : FT := {| rows := 1; cols := 2; chans := 1; get := fun _ j _ => Ok (if j =? 0 then a else b) |}.
Definition column_of (a b : F) : FT := {| rows := 2; cols := 1; chans := 1; get := fun i _ _ => Ok (if i =? 0 then a else b) |}.
Definition single (a : F) : FT := {| rows := 1; cols := 1; chans := 1; get := fun _ _ _ => Ok a |}.
Example ex_spoiled : forall powf, let sevens := [[of_Z 7]; [of_Z 7]] in
  let bad := (row (of_Z 1) (scale float32 (column_metadata sevens) (of_Z 7)), single (of_Z 1)) in let good := (row (of_Z 1) (of_Z 2), single (of_Z 3)) in
  exists w', train_records powf float_half (column_of (of_Z 1) (of_Z 0)) [good; bad; good] = Ok w' /\ spoiled w' 2 1.
Proof.
  intros powf sevens bad good. assert (R : forall a b, readable (row a b) 1 2) by (intros a b; repeat split; intros; eexists; reflexivity). assert (S : forall a, readable (single a) 1 1) by (intros a; repeat split; intros; eexists; reflexivity).
  destruct (FloatAct_Proofs.small_is 7 ltac:(cbn; lia)) as [N7 _].
  apply (constant_column_spoils_layer powf float_half (column_of (of_Z 1) (of_Z 0)) 2 1 [good] (fst bad) (snd bad) [good] 1 sevens (of_Z 7)).
  - repeat split; intros; eexists; reflexivity.
  - repeat constructor; cbn [fst snd]; try apply R; apply S.
  - repeat constructor; cbn [fst snd]; try apply R; apply S.
  - split; [apply R|apply S].
  - repeat constructor; exact N7.
  - cbn. lia.
  - intros y z [<-|[<-|[]]] [<-|[<-|[]]]; reflexivity.
  - now left.
  - lia.
  - reflexivity.
Qed.
(** An infinite gradient between two ordinary ones. *)
Example ex_bad_gradient : forall powf, ~ is_number (parameter (float_adam powf (of_Z 1) (fresh_cell (of_Z 3)) [of_Z 1; B754_infinity 24 128 false; of_Z 2])).
Proof. intros powf. apply (bad_gradient_is_never_forgotten powf (of_Z 1) (fresh_cell (of_Z 3)) [of_Z 1] (B754_infinity 24 128 false) [of_Z 2]). left. discriminate. Qed.
(** A library whose functions give NaN for NaN. *)
Example ex_activations : let lib := {| expf := fun x => fadd x float1; tanhf := fun x => x |} in is_NaN (float_relu nan32) /\ is_NaN (float_sigmoid lib nan32).
Proof.
  intros lib. destruct (nan_passes_activations lib nan32) as (R & _ & S & _); [reflexivity| | |split; [exact R|exact S]]; intros y Hy; [|exact Hy]. cbn [expf lib]. destruct y; try discriminate Hy. reflexivity.
Qed.
