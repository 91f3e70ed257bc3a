(** C40: matrix algebra.  C44: division of tensors. *)
From Coq Require Import List Arith Bool Lia Ring ZArith.
From Verif Require Import Outcome Tensor_Model Tensor_Spec Views_Proofs Algebra_Proofs MatMul_Proofs.
Import ListNotations.

(** Whatever the arithmetic (so also in floating point), element (i, j) of a product is the sum over
    x, in increasing order, of a(i,x) * b(x,j), channel by channel; other shapes are refused. *)
Theorem product_is_the_sum : forall A (o : ops A) (a b : tensor A),
  (forall n m p k f g, is_tensor a n m k f -> is_tensor b m p k g ->
    exists u, matrix_multiply o a b = Ok u /\
              is_tensor u n p k (fun i j l => Sum o m (fun x => mul o (f i x l) (g x j l)))) /\
  (cols a <> rows b \/ chans a <> chans b -> matrix_multiply o a b = Throw).
Proof.
  intros A o a b. split. - intros. now apply multiply_element.
  - intros H. destruct (matrix_multiply o a b) as [u| |] eqn:E; [|reflexivity|].
    + destruct (multiply_inv _ _ _ _ E) as (E1 & E2 & _). lia.
    + unfold matrix_multiply in E. destruct (negb _); [discriminate|]. destruct (negb _); discriminate.
Qed.

Theorem dot_product_is_the_sum : forall A (o : ops A) (a b : tensor A) n f g,
  is_tensor a 1 n 1 f -> is_tensor b 1 n 1 g ->
  exists u, dot_product o a b = Ok u /\
            is_tensor u 1 1 1 (fun _ _ _ => Sum o n (fun x => mul o (f 0 x 0) (g 0 x 0))).
Proof.
  intros A o a b n f g (Ha1 & <- & Ha3 & Ha) (Hb1 & Hb2 & Hb3 & Hb). unfold dot_product.
  rewrite Ha1, Ha3, Hb1, Hb3, Hb2. cbn [negb orb Nat.eqb]. rewrite Nat.eqb_refl. cbn [negb]. eexists. split; [reflexivity|].
  unfold is_tensor. cbn [rows cols chans get]. repeat split; try reflexivity. intros _ _ _ _ _ _.
  rewrite (loop_ext _ _ _ (fun x val => do v <- (do y <- get a 0 x 0; do z <- get b 0 x 0; Ok (mul o y z)); Ok (add o val v))).
  2: { intros x s. destruct (get a 0 x 0); cbn [obind]; try reflexivity. destruct (get b 0 x 0); reflexivity. }
  apply loop_Sum. intros x Hx. rewrite Ha, Hb by auto. reflexivity.
Qed.

(** The outer product of a column and a row is the matrix product of the two. *)
Theorem outer_product_is_the_product : forall A (o : ops A) (a b : tensor A) n p k f g,
  is_tensor a n 1 k f -> is_tensor b 1 p k g ->
  is_tensor (outer_product o a b) n p k (fun i j l => mul o (f i 0 l) (g 0 j l)).
Proof.
  intros A o a b n p k f g (<- & Ha2 & <- & Ha) (Hb1 & <- & Hb3 & Hb).
  unfold is_tensor. cbn [rows cols chans get outer_product]. repeat split; try reflexivity. intros i j l Hi Hj Hl.
  rewrite Ha, Hb by lia. reflexivity.
Qed.

(** Exact arithmetic: any commutative ring. *)
Section Ring.
Context {A : Type} (o : ops A) (opp : A -> A).
Hypothesis R : ring_theory (zero o) (one o) (add o) (mul o) (sub o) opp eq.
Add Ring Aring : R.
Notation T := (tensor A).

Theorem product_associative : forall a b c ab bc x y : T,
  readable a -> readable b -> readable c ->
  matrix_multiply o a b = Ok ab -> matrix_multiply o ab c = Ok x ->
  matrix_multiply o b c = Ok bc -> matrix_multiply o a bc = Ok y -> same x y.
Proof.
  intros a b c ab bc x y Ha Hb Hc Eab Ex Ebc Ey.
  apply (readable_is_tensor o) in Ha. apply (readable_is_tensor o) in Hb. apply (readable_is_tensor o) in Hc.
  pose proof (multiply_shape o _ _ _ _ _ Eab Ha Hb) as Hab. pose proof (multiply_shape o _ _ _ _ _ Ebc Hb Hc) as Hbc.
  pose proof (multiply_shape o _ _ _ _ _ Ex (is_tensor_self _ _ _ _ _ Hab) Hc) as Hx.
  pose proof (multiply_shape o _ _ _ _ _ Ey Ha (is_tensor_self _ _ _ _ _ Hbc)) as Hy.
  destruct Hab as (R1 & R2 & R3 & _). destruct Hbc as (S1 & S2 & S3 & _).
  destruct (multiply_inv _ _ _ _ Eab) as (T1 & _). rewrite R1, R2, R3 in Hx. rewrite S2 in Hy.
  eapply is_tensor_same; [exact Hx|]. eapply is_tensor_ext; [exact Hy|]. intros i j l Hi Hj Hl. cbv beta.
  rewrite (Sum_ext o (cols a) _ (fun u => Sum o (cols b) (fun v => mul o (val o a i u l) (mul o (val o b u v l) (val o c v j l)))))
    by (intros; now rewrite (Sum_mul_l o opp R)).
  rewrite (Sum_swap o opp R). apply Sum_ext. intros v Hv.
  rewrite <- (Sum_mul_r o opp R). apply Sum_ext. intros u Hu. ring.
Qed.

Theorem product_distributes : forall a b c s p q r x : T,
  readable a -> readable b -> readable c ->
  (add_view o b c = Ok s -> matrix_multiply o a s = Ok p ->
   matrix_multiply o a b = Ok q -> matrix_multiply o a c = Ok r -> add_view o q r = Ok x -> same p x) /\
  (add_view o a b = Ok s -> matrix_multiply o s c = Ok p ->
   matrix_multiply o a c = Ok q -> matrix_multiply o b c = Ok r -> add_view o q r = Ok x -> same p x).
Proof.
  intros a b c s p q r x Ha Hb Hc.
  apply (readable_is_tensor o) in Ha. apply (readable_is_tensor o) in Hb. apply (readable_is_tensor o) in Hc.
  split; intros Es Ep Eq Er Ex.
  - pose proof (pointwise_shape _ _ _ _ _ _ Es Hb Hc) as Hs.
    pose proof (multiply_shape o _ _ _ _ _ Ep Ha (is_tensor_self _ _ _ _ _ Hs)) as Hp.
    pose proof (multiply_shape o _ _ _ _ _ Eq Ha Hb) as Hq. pose proof (multiply_shape o _ _ _ _ _ Er Ha Hc) as Hr.
    pose proof (pointwise_shape _ _ _ _ _ _ Ex (is_tensor_self _ _ _ _ _ Hq) (is_tensor_self _ _ _ _ _ Hr)) as Hx.
    destruct Hs as (_ & S2 & _). destruct Hq as (Q1 & Q2 & Q3 & _). rewrite S2 in Hp. rewrite Q1, Q2, Q3 in Hx.
    eapply is_tensor_same; [exact Hp|]. eapply is_tensor_ext; [exact Hx|]. intros i j l _ _ _. cbv beta.
    rewrite <- (Sum_add o opp R). apply Sum_ext. intros u _. ring.
  - pose proof (pointwise_shape _ _ _ _ _ _ Es Ha Hb) as Hs.
    pose proof (multiply_shape o _ _ _ _ _ Ep (is_tensor_self _ _ _ _ _ Hs) Hc) as Hp.
    pose proof (multiply_shape o _ _ _ _ _ Eq Ha Hc) as Hq. pose proof (multiply_shape o _ _ _ _ _ Er Hb Hc) as Hr.
    pose proof (pointwise_shape _ _ _ _ _ _ Ex (is_tensor_self _ _ _ _ _ Hq) (is_tensor_self _ _ _ _ _ Hr)) as Hx.
    destruct (pointwise_inv _ _ _ _ Es) as (_ & T2 & _).
    destruct Hs as (S1 & S2 & S3 & _). destruct Hq as (Q1 & Q2 & Q3 & _). rewrite S1, S2, S3 in Hp. rewrite Q1, Q2, Q3 in Hx.
    eapply is_tensor_same; [exact Hp|]. eapply is_tensor_ext; [exact Hx|]. intros i j l _ _ _. cbv beta.
    rewrite <- T2, <- (Sum_add o opp R). apply Sum_ext. intros u _. ring.
Qed.

(** (AB)^T = B^T A^T, and B^T A^T is accepted when AB is. *)
Theorem product_transposed : forall a b ab : T, readable a -> readable b -> matrix_multiply o a b = Ok ab ->
  exists x, matrix_multiply o (transpose b) (transpose a) = Ok x /\ same (transpose ab) x.
Proof.
  intros a b ab Ha Hb E.
  apply (readable_is_tensor o) in Ha. apply (readable_is_tensor o) in Hb.
  destruct (multiply_inv _ _ _ _ E) as (E1 & E2 & _).
  pose proof (transpose_tensor _ _ _ _ _ (multiply_shape o _ _ _ _ _ E Ha Hb)) as Hab.
  rewrite <- E1, <- E2 in Hb. apply transpose_tensor in Ha, Hb.
  destruct (multiply_element o _ _ _ _ _ _ _ _ Hb Ha) as (x & Ex & Hx). exists x. split; [exact Ex|].
  eapply is_tensor_same; [exact Hab|]. eapply is_tensor_ext; [exact Hx|]. intros i j l _ _ _. cbv beta.
  apply Sum_ext. intros u _. ring.
Qed.
End Ring.

(** C44: division is element by element, a zero denominator being replaced by the given epsilon;
    different shapes are refused. *)
(** Partial, C44: the elements; the division of matrices is refuted. *)
Theorem divide_elements_partial : forall A (o : ops A) epsilon (a b : tensor A),
  (forall n m k f g, is_tensor a n m k f -> is_tensor b n m k g ->
     exists u, divide_view o epsilon a b = Ok u /\
       is_tensor u n m k (fun i j l => div o (f i j l) (if eqb o (g i j l) (zero o) then epsilon else g i j l))) /\
  (rows a <> rows b \/ cols a <> cols b \/ chans a <> chans b -> divide_view o epsilon a b = Throw).
Proof.
  intros A o eps a b. split. - intros. now apply (pointwise_element (fun x y => div o x (if eqb o y (zero o) then eps else y))).
  - intros H. unfold divide_view. destruct (pointwise _ a b) as [u| |] eqn:E; [|reflexivity|].
    + apply pointwise_inv in E. lia. + unfold pointwise in E. destruct (same_shape a b); discriminate.
Qed.

(** A 2 x 2 by 2 x 3 product with two channels. *)
Definition exa : tensor Z := {| rows := 2; cols := 2; chans := 2; get := fun r c k => Ok (Z.of_nat (1 + r + 2 * c + 4 * k)) |}.
Definition exb : tensor Z := {| rows := 2; cols := 3; chans := 2; get := fun r c k => Ok (Z.of_nat (r + c + k)) |}.
Example ex_product : match matrix_multiply zops exa exb with Ok u => get u 1 2 1 | _ => UB end = Ok (6 * 3 + 8 * 4)%Z.
Proof. reflexivity. Qed.
Example ex_ring : ring_theory (zero zops) (one zops) (add zops) (mul zops) (sub zops) Z.opp eq. Proof. exact Zth. Qed.
Example ex_assoc : exists ab x bc y, matrix_multiply zops exa exa = Ok ab /\ matrix_multiply zops ab exb = Ok x /\
  matrix_multiply zops exa exb = Ok bc /\ matrix_multiply zops exa bc = Ok y /\ get x 1 1 0 = Ok 54%Z.
Proof. do 4 eexists. do 4 (split; [reflexivity|]). reflexivity. Qed.
Example ex_divide : match divide_view zops 5%Z exb exb with Ok u => (get u 0 0 0, get u 1 1 1) | _ => (UB, UB) end = (Ok 0%Z, Ok 1%Z).
Proof. reflexivity. Qed.

Print Assumptions product_is_the_sum. Print Assumptions dot_product_is_the_sum. Print Assumptions outer_product_is_the_product.
Print Assumptions product_associative. Print Assumptions product_distributes. Print Assumptions product_transposed.
Print Assumptions divide_elements_partial.
