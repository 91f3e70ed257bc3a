(** Proofs about matrix, dot and outer products. *)
From Coq Require Import List Arith Bool Lia Ring.
From Verif Require Import Outcome Tensor_Model Tensor_Spec Views_Proofs Algebra_Proofs.
Import ListNotations.

Section Any.
Context {A : Type} (o : ops A).
Notation T := (tensor A).

Lemma multiply_element : forall (a b : T) n m p k f g, is_tensor a n m k f -> is_tensor b m p k g ->
  exists u, matrix_multiply o a b = Ok u /\ is_tensor u n p k (fun i j l => Sum o m (fun x => mul o (f i x l) (g x j l))).
Proof.
  intros a b n m p k f g (<- & Hm & <- & Ha) (Hm' & <- & Hk & Hb). unfold matrix_multiply.
  rewrite Hm, Hm', Hk, !Nat.eqb_refl. cbn [negb]. eexists. split; [reflexivity|].
  unfold is_tensor. cbn [rows cols chans get]. repeat split; try reflexivity. intros i j l Hi Hj Hl.
  rewrite (loop_ext _ _ _ (fun x val => do v <- (do y <- get a i x l; do z <- get b x j l; Ok (mul o y z)); Ok (add o val v))).
  2: { intros x s. destruct (get a i x l); cbn [obind]; try reflexivity. destruct (get b x j l); reflexivity. }
  apply loop_Sum. intros x Hx. rewrite Ha, Hb by auto. reflexivity.
Qed.

Lemma multiply_inv : forall (a b u : T), matrix_multiply o a b = Ok u ->
  cols a = rows b /\ chans a = chans b /\ rows u = rows a /\ cols u = cols b /\ chans u = chans a.
Proof.
  intros a b u. unfold matrix_multiply. destruct (cols a =? rows b) eqn:E1; cbn [negb]; [|discriminate].
  destruct (chans a =? chans b) eqn:E2; cbn [negb]; [|discriminate]. intros [= <-]. cbn [rows cols chans].
  apply Nat.eqb_eq in E1, E2. auto.
Qed.

Lemma multiply_shape : forall (a b u : T) f g, matrix_multiply o a b = Ok u ->
  is_tensor a (rows a) (cols a) (chans a) f -> is_tensor b (rows b) (cols b) (chans b) g ->
  is_tensor u (rows a) (cols b) (chans a) (fun i j l => Sum o (cols a) (fun x => mul o (f i x l) (g x j l))).
Proof.
  intros a b u f g E Ha Hb. destruct (multiply_inv _ _ _ E) as (E1 & E2 & _).
  rewrite <- E1, <- E2 in Hb. destruct (multiply_element a b _ _ _ _ f g Ha Hb) as (u' & E' & Hu').
  rewrite E in E'. injection E' as <-. exact Hu'.
Qed.

Lemma pointwise_element : forall h (a b : T) n m k f g, is_tensor a n m k f -> is_tensor b n m k g ->
  exists u, pointwise h a b = Ok u /\ is_tensor u n m k (fun i j l => h (f i j l) (g i j l)).
Proof.
  intros h a b n m k f g (<- & <- & <- & Ha) (H1 & H2 & H3 & Hb). unfold pointwise, same_shape.
  rewrite H1, H2, H3, !Nat.eqb_refl. cbn [andb]. eexists. split; [reflexivity|].
  unfold is_tensor. cbn [rows cols chans get]. repeat split; try reflexivity. intros i j l Hi Hj Hl.
  rewrite Ha, Hb by auto. reflexivity.
Qed.

Lemma pointwise_inv : forall h (a b u : T), pointwise h a b = Ok u ->
  rows a = rows b /\ cols a = cols b /\ chans a = chans b.
Proof.
  intros h a b u. unfold pointwise, same_shape. destruct (_ && _) eqn:E; [|discriminate]. intros _.
  rewrite !andb_true_iff, !Nat.eqb_eq in E. intuition.
Qed.

Lemma pointwise_shape : forall h (a b u : T) f g, pointwise h a b = Ok u ->
  is_tensor a (rows a) (cols a) (chans a) f -> is_tensor b (rows b) (cols b) (chans b) g ->
  is_tensor u (rows a) (cols a) (chans a) (fun i j l => h (f i j l) (g i j l)).
Proof.
  intros h a b u f g E Ha Hb. destruct (pointwise_inv _ _ _ _ E) as (E1 & E2 & E3).
  rewrite <- E1, <- E2, <- E3 in Hb. destruct (pointwise_element h a b _ _ _ f g Ha Hb) as (u' & E' & Hu').
  rewrite E in E'. injection E' as <-. exact Hu'.
Qed.

Lemma is_tensor_self : forall (t : T) r c k f, is_tensor t r c k f -> is_tensor t (rows t) (cols t) (chans t) f.
Proof. intros t r c k f H. pose proof H as (-> & -> & -> & _). exact H. Qed.

Lemma transpose_tensor : forall (t : T) r c k f, is_tensor t r c k f -> is_tensor (transpose t) c r k (fun i j l => f j i l).
Proof. intros t r c k f (<- & <- & <- & H). unfold is_tensor. cbn. repeat split; auto. Qed.
End Any.
