(** Proofs about values that are not numbers. *)
From Coq Require Import List Arith ZArith Lia.
From Flocq Require Import Core IEEE754.BinarySingleNaN IEEE754.Binary IEEE754.Bits.
From Verif Require Import Outcome F32_Model Tensor_Model Reduce_Model FloatNet_Model FloatNet_Spec FloatOpt_Model FloatLoss_Model Spoil_Model Spoil_Spec.
Import ListNotations.

Lemma add_spoiled x y : ~ is_number x \/ ~ is_number y -> ~ is_number (fadd x y).
Proof.
  unfold is_number. destruct x as [s|s|s pl e|s m e b], y as [s'|s'|s' pl' e'|s' m' e' b']; intros [H|H] N; try (apply H; reflexivity); try discriminate N; destruct s, s'; discriminate N.
Qed.
Lemma sub_spoiled x y : ~ is_number x \/ ~ is_number y -> ~ is_number (fsub x y).
Proof.
  unfold is_number. destruct x as [s|s|s pl e|s m e b], y as [s'|s'|s' pl' e'|s' m' e' b']; intros [H|H] N; try (apply H; reflexivity); try discriminate N; destruct s, s'; discriminate N.
Qed.
Lemma mul_spoiled x y : ~ is_number x \/ ~ is_number y -> ~ is_number (fmul x y).
Proof.
  unfold is_number. destruct x as [s|s|s pl e|s m e b], y as [s'|s'|s' pl' e'|s' m' e' b']; intros [H|H] N; try (apply H; reflexivity); try discriminate N.
Qed.
Lemma div_spoiled x y : ~ is_number x -> ~ is_number (fdiv x y).
Proof.
  unfold is_number. destruct x as [s|s|s pl e|s m e b], y as [s'|s'|s' pl' e'|s' m' e' b']; intros H N; try (apply H; reflexivity); try discriminate N.
Qed.

(** ** Optimizers *)
Lemma descent_spoiled lr w g : ~ is_number w \/ ~ is_number g -> ~ is_number (float_descent_step lr w g).
Proof. intros [H|H]; apply sub_spoiled; [now left|]. right. apply mul_spoiled. now right. Qed.
Lemma momentum_spoiled lr c g : ~ is_number (parameter c) \/ ~ is_number g -> ~ is_number (parameter (float_momentum_step lr c g)).
Proof. intros [H|H]; apply sub_spoiled; [now left|]. right. apply add_spoiled. right. apply mul_spoiled. now right. Qed.
Lemma adam_spoiled powf lr c g : ~ is_number (parameter c) \/ ~ is_number g -> ~ is_number (parameter (float_adam_step powf lr c g)).
Proof. intros [H|H]; apply add_spoiled; [now left|]. right. apply mul_spoiled. left. apply mul_spoiled. right. apply add_spoiled. right. apply mul_spoiled. now right. Qed.

(** ** Tensors *)
Definition bad (f : nat -> outcome F) (k : nat) : Prop := exists v, f k = Ok v /\ ~ is_number v.
Lemma product_spoiled (f g : nat -> outcome F) : forall n i s, (forall k, i <= k < i + n -> (exists a, f k = Ok a) /\ exists b, g k = Ok b) ->
  exists v, loop n i (fun k val => do x <- f k; do y <- g k; Ok (fadd val (fmul x y))) s = Ok v /\ (~ is_number s \/ (exists k, i <= k < i + n /\ (bad f k \/ bad g k)) -> ~ is_number v).
Proof.
  induction n as [|n IH]; intros i s H; cbn [loop].
  - exists s. split; [reflexivity|]. intros [N|(k & B & _)]; [exact N|lia].
  - destruct (H i ltac:(lia)) as [[a Ea] [b Eb]]. rewrite Ea, Eb. cbn [obind]. destruct (IH (S i) (fadd s (fmul a b))) as (v & E & G); [intros k Hk; apply H; lia|]. exists v. split; [exact E|]. intros [N|(k & B & D)]; apply G; [left; apply add_spoiled; now left|].
    destruct (Nat.eq_dec k i) as [->|Ne]; [|right; exists k; split; [lia|exact D]]. left. apply add_spoiled. right. apply mul_spoiled. destruct D as [(v' & E' & N)|(v' & E' & N)]; [left|right]; congruence.
Qed.
Lemma matrix_spoiled a b r n c : readable a r n -> readable b n c -> exists t, matrix_multiply fops a b = Ok t /\ readable t r c /\
  forall i j v, i < r -> j < c -> get t i j 0 = Ok v -> (exists k, k < n /\ (bad (fun k => get a i k 0) k \/ bad (fun k => get b k j 0) k)) -> ~ is_number v.
Proof.
  intros (Ra & Ca & Ka & Ga) (Rb & Cb & Kb & Gb). unfold matrix_multiply. rewrite Ca, Rb, Ka, Kb, !Nat.eqb_refl. cbn [negb]. eexists. split; [reflexivity|]. unfold readable. cbn [rows cols chans get fops add mul zero].
  assert (P : forall i j, i < r -> j < c -> exists v, loop n 0 (fun k val => do x <- get a i k 0; do y <- get b k j 0; Ok (fadd val (fmul x y))) float0 = Ok v /\ (~ is_number float0 \/ (exists k, 0 <= k < 0 + n /\ (bad (fun k => get a i k 0) k \/ bad (fun k => get b k j 0) k)) -> ~ is_number v)).
  { intros i j Hi Hj. apply (product_spoiled (fun k => get a i k 0) (fun k => get b k j 0)). intros k Hk. split; [apply Ga|apply Gb]; lia. }
  split.
  - split; [exact Ra|]. split; [exact Cb|]. split; [reflexivity|]. intros i j Hi Hj. destruct (P i j Hi Hj) as (v & E & _). now exists v.
  - intros i j v Hi Hj Ev (k & Hk & D). destruct (P i j Hi Hj) as (v' & E & N). assert (v = v') by congruence. subst v'. apply N. right. exists k. split; [lia|exact D].
Qed.
Lemma pointwise_spoiled f a b r c : (forall x y, ~ is_number x \/ ~ is_number y -> ~ is_number (f x y)) -> readable a r c -> readable b r c -> exists t, pointwise f a b = Ok t /\ readable t r c /\ (spoiled a r c \/ spoiled b r c -> spoiled t r c).
Proof.
  intros Hf (Ra & Ca & Ka & Ga) (Rb & Cb & Kb & Gb). unfold pointwise, same_shape. rewrite Ra, Rb, Ca, Cb, Ka, Kb, !Nat.eqb_refl. cbn [andb]. eexists. split; [reflexivity|].
  assert (R : readable {| rows := r; cols := c; chans := 1; get := fun r c k => do x <- get a r c k; do y <- get b r c k; Ok (f x y) |} r c).
  { split; [reflexivity|]. split; [reflexivity|]. split; [reflexivity|]. cbn [get]. intros i j Hi Hj. destruct (Ga i j Hi Hj) as [x ->]. destruct (Gb i j Hi Hj) as [y ->]. now exists (f x y). }
  split; [exact R|]. intros S. split; [exact R|]. cbn [get]. intros i j v Hi Hj. destruct (Ga i j Hi Hj) as [x Ex]. destruct (Gb i j Hi Hj) as [y Ey]. rewrite Ex, Ey. cbn [obind]. intros E. injection E as <-. apply Hf. destruct S as [[_ S]|[_ S]]; [left; exact (S i j x Hi Hj Ex)|right; exact (S i j y Hi Hj Ey)].
Qed.
Lemma transform_spoiled g t r c : (forall x, ~ is_number x -> ~ is_number (g x)) -> readable t r c -> readable (transform g t) r c /\ (spoiled t r c -> spoiled (transform g t) r c).
Proof.
  intros Hg (Rt & Ct & Kt & Gt). assert (R : readable (transform g t) r c). { split; [exact Rt|]. split; [exact Ct|]. split; [exact Kt|]. intros i j Hi Hj. cbn [transform get]. destruct (Gt i j Hi Hj) as [x ->]. now exists (g x). }
  split; [exact R|]. intros [_ S]. split; [exact R|]. intros i j v Hi Hj. cbn [transform get]. destruct (Gt i j Hi Hj) as [x Ex]. rewrite Ex. cbn [obind]. intros E. injection E as <-. apply Hg. exact (S i j x Hi Hj Ex).
Qed.

(** ** Training *)
Lemma forward_spoiled w x n m : readable x 1 n -> readable w n m -> exists p, linear_forward w x = Ok p /\ readable p 1 m /\ ((exists j v, j < n /\ get x 0 j 0 = Ok v /\ ~ is_number v) \/ (0 < n /\ spoiled w n m) -> spoiled p 1 m).
Proof.
  intros Rx Rw. destruct (matrix_spoiled x w 1 n m Rx Rw) as (p & E & Rp & B). exists p. split; [exact E|]. split; [exact Rp|]. intros D. split; [exact Rp|]. intros i j v Hi Hj Ev. apply (B i j v Hi Hj Ev). assert (i = 0) by lia. subst i. destruct D as [(k & u & Hk & Eu & Nu)|(Hn & _ & S)].
  - exists k. split; [exact Hk|]. left. now exists u.
  - exists 0. split; [exact Hn|]. right. destruct Rw as (_ & _ & _ & Gw). destruct (Gw 0 j Hn Hj) as [u Eu]. exists u. split; [exact Eu|exact (S 0 j u Hn Hj Eu)].
Qed.
Lemma derivative_spoiled powf truth p m : readable truth 1 m -> readable p 1 m -> exists e, float_derivative_of (float_mse powf) truth p = Ok e /\ readable e 1 m /\ (spoiled p 1 m -> spoiled e 1 m).
Proof.
  intros Rt Rp. unfold float_derivative_of, float_mse. cbn [float_error float_derivative]. destruct (pointwise_spoiled fsub p truth 1 m sub_spoiled Rp Rt) as (d & E & Rd & S). unfold subtract_view. cbn [fops sub]. rewrite E. cbn [obind]. eexists. split; [reflexivity|].
  destruct (transform_spoiled (fun v => fmul (of_Z 2) v) d 1 m (fun x H => mul_spoiled _ _ (or_intror H)) Rd) as [R1 S1]. split; [exact R1|]. intros Sp. apply S1. apply S. now left.
Qed.
Lemma transpose_readable x r c : readable x r c -> readable (transpose x) c r.
Proof. intros (R & C & K & G). repeat split; try assumption. intros i j Hi Hj. cbn [transpose get]. now apply G. Qed.
Lemma gradient_spoiled powf w x truth n m : readable x 1 n -> readable truth 1 m -> readable w n m -> exists g, linear_gradient powf w x truth = Ok g /\ readable g n m /\ ((exists j v, j < n /\ get x 0 j 0 = Ok v /\ ~ is_number v) \/ (0 < n /\ spoiled w n m) -> spoiled g n m).
Proof.
  intros Rx Rt Rw. unfold linear_gradient. destruct (forward_spoiled w x n m Rx Rw) as (p & -> & Rp & Sp). cbn [obind]. destruct (derivative_spoiled powf truth p m Rt Rp) as (e & -> & Re & Se). cbn [obind].
  destruct (matrix_spoiled (transpose x) e n 1 m (transpose_readable _ _ _ Rx) Re) as (g & -> & Rg & Bg). cbn [obind]. eexists. split; [reflexivity|]. destruct (transform_spoiled (fun v => fdiv v (of_Z 1)) g n m (fun x H => div_spoiled x _ H) Rg) as [R1 S1]. split; [exact R1|]. intros D. apply S1. split; [exact Rg|].
  intros i j v Hi Hj Ev. apply (Bg i j v Hi Hj Ev). exists 0. split; [lia|]. right. destruct (Se (Sp D)) as [_ S]. destruct Re as (_ & _ & _ & Ge). destruct (Ge 0 j ltac:(lia) Hj) as [u Eu]. exists u. split; [exact Eu|]. apply (S 0 j u); [lia|exact Hj|exact Eu].
Qed.
Lemma record_spoiled powf lr w record n m : fits n m record -> readable w n m -> exists w', train_record powf lr w record = Ok w' /\ readable w' n m /\ ((exists j v, j < n /\ get (fst record) 0 j 0 = Ok v /\ ~ is_number v) \/ spoiled w n m -> spoiled w' n m).
Proof.
  intros [Rx Rt] Rw. unfold train_record. destruct (gradient_spoiled powf w (fst record) (snd record) n m Rx Rt Rw) as (g & -> & Rg & Sg). cbn [obind]. unfold linear_apply. destruct (pointwise_spoiled (float_descent_step lr) w g n m (descent_spoiled lr) Rw Rg) as (w' & E & R' & S'). exists w'. split; [exact E|]. split; [exact R'|].
  intros [D|D]; apply S'; [right; apply Sg; now left|now left].
Qed.
Lemma records_spoiled powf lr n m : forall records w, Forall (fits n m) records -> readable w n m -> exists w', train_records powf lr w records = Ok w' /\ readable w' n m /\ (spoiled w n m -> spoiled w' n m).
Proof.
  induction records as [|r rs IH]; intros w F R; cbn [train_records]; [exists w; tauto|]. inversion F as [|? ? Fr Frs]; subst. destruct (record_spoiled powf lr w r n m Fr R) as (w1 & -> & R1 & S1). cbn [obind]. destruct (IH w1 Frs R1) as (w' & E & R' & S'). exists w'. split; [exact E|]. split; [exact R'|]. intros S. apply S'. apply S1. now right.
Qed.
Lemma train_app powf lr w a b : train_records powf lr w (a ++ b) = do w' <- train_records powf lr w a; train_records powf lr w' b.
Proof. revert w. induction a as [|r a IH]; intros w; cbn [app train_records]; [reflexivity|]. destruct (train_record powf lr w r) as [w1| |]; cbn [obind]; [apply IH|reflexivity|reflexivity]. Qed.
