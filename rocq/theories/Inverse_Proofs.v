(** Gauss-Jordan elimination over a field. *)
From Coq Require Import List Arith Bool Lia Ring Field.
From Verif Require Import Outcome Tensor_Model Tensor_Spec Views_Proofs Algebra_Proofs MatMul_Proofs Inverse_Model.
Import ListNotations.

Section Field.
Context {A : Type} (o : ops A) (opp inv : A -> A).
Hypothesis F : field_theory (zero o) (one o) (add o) (mul o) (sub o) opp (div o) inv eq.
Hypothesis eqb_spec : forall x y, eqb o x y = true <-> x = y.
Add Field Afield : F.
Let R := F_R F.
Notation "0" := (zero o). Notation "1" := (one o).
Notation "x + y" := (add o x y). Notation "x * y" := (mul o x y). Notation "x - y" := (sub o x y). Notation "x / y" := (div o x y).
Notation Sm := (Sum o).
Notation mat := (nat -> nat -> A).

Definition delta (i j : nat) : A := if Nat.eqb i j then 1 else 0.

Lemma div_mul : forall x p, p <> 0 -> x / p * p = x.
Proof. intros x p H. field. exact H. Qed.

Variable n : nat.
Variable a : mat.

(** left block = right block * a; right block has trivial kernel; the first i columns are unit vectors *)
Record inv_i (i : nat) (m : mat) : Prop := {
  left_eq : forall r c, r < n -> c < n -> m r c = Sm n (fun k => m r (Nat.add k n) * a k c);
  kernel : forall v, (forall r, r < n -> Sm n (fun c => m r (Nat.add c n) * v c) = 0) -> forall c, c < n -> v c = 0;
  unit_cols : forall r c, r < n -> c < i -> c < n -> m r c = delta r c }.

Lemma inv_start : inv_i O (augmented o n a).
Proof.
  split.
  - intros r c Hr Hc. unfold augmented at 1. replace (c <? n) with true by (symmetry; apply Nat.ltb_lt; lia).
    rewrite (Sum_one o opp R n _ r Hr).
    + unfold augmented. replace (Nat.add r n <? n) with false by (symmetry; apply Nat.ltb_ge; lia).
      replace (Nat.sub (Nat.add r n) n) with r by lia. rewrite Nat.eqb_refl. ring.
    + intros j Hj Hne. unfold augmented. replace (Nat.add j n <? n) with false by (symmetry; apply Nat.ltb_ge; lia).
      replace (Nat.sub (Nat.add j n) n) with j by lia.
      replace (Nat.eqb r j) with false by (symmetry; apply Nat.eqb_neq; lia). ring.
  - intros v H c Hc. specialize (H c Hc). rewrite (Sum_one o opp R n _ c Hc) in H.
    + unfold augmented in H. replace (Nat.add c n <? n) with false in H by (symmetry; apply Nat.ltb_ge; lia).
      replace (Nat.sub (Nat.add c n) n) with c in H by lia. rewrite Nat.eqb_refl in H. rewrite <- H. ring.
    + intros j Hj Hne. unfold augmented. replace (Nat.add j n <? n) with false by (symmetry; apply Nat.ltb_ge; lia).
      replace (Nat.sub (Nat.add j n) n) with j by lia.
      replace (Nat.eqb c j) with false by (symmetry; apply Nat.eqb_neq; lia). ring.
  - intros; lia.
Qed.

Lemma pivot_spec : forall i m, i < n -> inv_i i m ->
  (exists m', pivot_row o n i m = Ok m' /\ inv_i i m' /\ m' i i <> 0) \/
  (pivot_row o n i m = Throw /\ forall j, i <= j -> j < n -> m j i = 0).
Proof.
  intros i m Hi H. unfold pivot_row. destruct (eqb o (m i i) 0) eqn:E.
  - apply eqb_spec in E. destruct (find _ _) as [j|] eqn:Fj.
    + left. apply find_some in Fj. destruct Fj as [Hin Hnz]. apply in_seq in Hin.
      apply negb_true_iff in Hnz. eexists. split; [reflexivity|]. split.
      * destruct H as [HL HK HU]. split.
        -- intros r c Hr Hc. destruct (Nat.eqb r i) eqn:E1; [apply HL; lia|]. destruct (Nat.eqb r j) eqn:E2; apply HL; lia.
        -- intros v Hv. apply HK. intros r Hr. destruct (Nat.eq_dec r i) as [->|Hri].
           ++ specialize (Hv j ltac:(lia)). cbv beta in Hv. rewrite Nat.eqb_refl in Hv.
              replace (Nat.eqb j i) with false in Hv by (symmetry; apply Nat.eqb_neq; lia). exact Hv.
           ++ destruct (Nat.eq_dec r j) as [->|Hrj].
              ** specialize (Hv i Hi). cbv beta in Hv. rewrite Nat.eqb_refl in Hv. exact Hv.
              ** specialize (Hv r Hr). cbv beta in Hv. apply Nat.eqb_neq in Hri, Hrj. rewrite Hri, Hrj in Hv. exact Hv.
        -- intros r c Hr Hci Hc. destruct (Nat.eqb r i) eqn:E1; [|destruct (Nat.eqb r j) eqn:E2].
           ++ apply Nat.eqb_eq in E1. subst r. rewrite HU by lia. unfold delta.
              replace (Nat.eqb j c) with false by (symmetry; apply Nat.eqb_neq; lia).
              now replace (Nat.eqb i c) with false by (symmetry; apply Nat.eqb_neq; lia).
           ++ apply Nat.eqb_eq in E2. subst r. rewrite HU by lia. unfold delta.
              replace (Nat.eqb j c) with false by (symmetry; apply Nat.eqb_neq; lia).
              now replace (Nat.eqb i c) with false by (symmetry; apply Nat.eqb_neq; lia).
           ++ apply HU; assumption.
      * rewrite Nat.eqb_refl. intros Ez. apply eqb_spec in Ez. congruence.
    + right. split; [reflexivity|]. intros j Hij Hj. destruct (Nat.eq_dec j i) as [->|Hne]; [exact E|].
      pose proof (find_none _ _ Fj j ltac:(apply in_seq; lia)) as N. apply negb_false_iff in N. now apply eqb_spec in N.
  - left. exists m. split; [reflexivity|]. split; [exact H|]. intros Ez. apply eqb_spec in Ez. congruence.
Qed.

Lemma step_inv : forall i m, i < n -> inv_i i m -> m i i <> 0 ->
  inv_i (S i) (eliminate o n i (scale_row o i m)).
Proof.
  intros i m Hi [HL HK HU] Hp.
  set (s := scale_row o i m). set (p := m i i) in *.
  assert (Si : forall c, i <= c -> s i c = m i c / p).
  { intros c Hc. unfold s, scale_row. rewrite Nat.eqb_refl. replace (i <=? c) with true by (symmetry; apply Nat.leb_le; lia). reflexivity. }
  assert (Si0 : forall c, c < i -> s i c = 0).
  { intros c Hc. unfold s, scale_row. rewrite Nat.eqb_refl. replace (i <=? c) with false by (symmetry; apply Nat.leb_gt; lia).
    cbn [andb]. rewrite HU by lia. unfold delta. now replace (Nat.eqb i c) with false by (symmetry; apply Nat.eqb_neq; lia). }
  assert (So : forall r c, r <> i -> s r c = m r c).
  { intros r c Hr. unfold s, scale_row. apply Nat.eqb_neq in Hr. now rewrite Hr. }
  assert (Sd : forall c, c < n -> s i c = m i c / p).
  { intros c Hc. destruct (le_lt_dec i c); [now apply Si|]. rewrite Si0 by lia. rewrite HU by lia. unfold delta.
    replace (Nat.eqb i c) with false by (symmetry; apply Nat.eqb_neq; lia). field. exact Hp. }
  assert (SL : forall c, c < n -> s i c = Sm n (fun k => s i (Nat.add k n) * a k c)).
  { intros c Hc. rewrite Sd by exact Hc. rewrite HL by lia.
    rewrite (Sum_ext o n (fun k => s i (Nat.add k n) * a k c) (fun k => (m i (Nat.add k n) * a k c) * inv p)).
    - rewrite (Sum_mul_r o opp R). field. exact Hp.
    - intros k Hk. rewrite Si by lia. field. exact Hp. }
  assert (E : forall r c, r < n -> r <> i -> eliminate o n i s r c = m r c - m r i * s i c).
  { intros r c Hr Hne. unfold eliminate. apply Nat.ltb_lt in Hr. rewrite Hr. pose proof Hne as Hne'. apply Nat.eqb_neq in Hne'. rewrite Hne'.
    cbn [andb negb]. now rewrite !(So r) by exact Hne. }
  assert (Ei : forall c, eliminate o n i s i c = s i c).
  { intros c. unfold eliminate. rewrite Nat.eqb_refl. now rewrite andb_false_r. }
  split.
  - intros r c Hr Hc. destruct (Nat.eq_dec r i) as [->|Hne].
    + rewrite Ei. rewrite SL by exact Hc. apply Sum_ext. intros k Hk. now rewrite Ei.
    + rewrite E by assumption. rewrite HL, SL by lia.
      rewrite <- (Sum_mul_l o opp R), <- (Sum_sub o opp R). apply Sum_ext. intros k Hk. rewrite E by assumption. ring.
  - intros v Hv. apply HK.
    assert (Hi0 : Sm n (fun c => m i (Nat.add c n) * v c) = 0).
    { specialize (Hv i Hi). rewrite (Sum_ext o n _ (fun c => (m i (Nat.add c n) * v c) * inv p)) in Hv.
      - rewrite (Sum_mul_r o opp R) in Hv. set (z := Sm n _) in *.
        assert (z = z * inv p * p) as -> by (field; exact Hp). rewrite Hv. ring.
      - intros c Hc. rewrite Ei, Si by lia. field. exact Hp. }
    intros r Hr. destruct (Nat.eq_dec r i) as [->|Hne]; [exact Hi0|].
    specialize (Hv r Hr).
    rewrite (Sum_ext o n _ (fun c => m r (Nat.add c n) * v c - (m r i * inv p) * (m i (Nat.add c n) * v c))) in Hv.
    + rewrite (Sum_sub o opp R), (Sum_mul_l o opp R), Hi0 in Hv. set (z := Sm n _) in *. rewrite <- Hv. ring.
    + intros c Hc. rewrite E by assumption. rewrite Si by lia. field. exact Hp.
  - intros r c Hr Hci Hc. destruct (Nat.eq_dec c i) as [->|Hne].
    + destruct (Nat.eq_dec r i) as [->|Hri].
      * rewrite Ei, Si by lia. unfold delta. rewrite Nat.eqb_refl. unfold p. field. exact Hp.
      * rewrite E by assumption. rewrite Si by lia. unfold delta. apply Nat.eqb_neq in Hri. rewrite Hri. fold p. field. exact Hp.
    + destruct (Nat.eq_dec r i) as [->|Hri].
      * rewrite Ei, Si0 by lia. unfold delta. now replace (Nat.eqb i c) with false by (symmetry; apply Nat.eqb_neq; lia).
      * rewrite E by assumption. rewrite Si0 by lia. rewrite <- HU by lia. ring.
Qed.

Lemma singular_kernel : forall i m, i < n -> inv_i i m -> (forall j, i <= j -> j < n -> m j i = 0) ->
  exists x, x i = 1 /\ forall r, r < n -> Sm n (fun c => a r c * x c) = 0.
Proof.
  intros i m Hi [HL HK HU] Hz.
  set (x := fun c => if c <? i then opp (m c i) else if Nat.eqb c i then 1 else 0).
  exists x. split. { unfold x. rewrite Nat.ltb_irrefl, Nat.eqb_refl. reflexivity. }
  intros r Hr. apply (HK (fun r => Sm n (fun c => a r c * x c))); [|exact Hr].
  intros q Hq.
  (* right block * (a x) = left block * x *)
  transitivity (Sm n (fun c => m q c * x c)).
  { rewrite (Sum_ext o n (fun c => m q c * x c) (fun c => Sm n (fun k => m q (Nat.add k n) * (a k c * x c)))).
    - rewrite (Sum_swap o opp R). apply Sum_ext. intros k Hk. symmetry. apply (Sum_mul_l o opp R).
    - intros c Hc. rewrite HL by lia. rewrite <- (Sum_mul_r o opp R). apply Sum_ext. intros; ring. }
  (* left block * x = 0 *)
  replace n with (Nat.add (Nat.add i 1) (Nat.sub (Nat.sub n i) 1)) by lia.
  rewrite !(Sum_split o opp R). cbn [Sum].
  rewrite (Sum_zero o opp R (Nat.sub (Nat.sub n i) 1)).
  2: { intros k Hk. unfold x. replace (_ <? i) with false by (symmetry; apply Nat.ltb_ge; lia).
       replace (Nat.eqb _ i) with false by (symmetry; apply Nat.eqb_neq; lia). ring. }
  assert (Xi : x (Nat.add i O) = 1). { rewrite Nat.add_0_r. unfold x. rewrite Nat.ltb_irrefl, Nat.eqb_refl. reflexivity. }
  rewrite Xi, Nat.add_0_r.
  rewrite (Sum_ext o i _ (fun c => delta q c * opp (m c i))).
  2: { intros c Hc. rewrite HU by lia. unfold x. replace (c <? i) with true by (symmetry; apply Nat.ltb_lt; lia). reflexivity. }
  destruct (le_lt_dec i q) as [Hiq|Hqi].
  - rewrite (Sum_zero o opp R). + rewrite Hz by assumption. ring.
    + intros c Hc. unfold delta. replace (Nat.eqb q c) with false by (symmetry; apply Nat.eqb_neq; lia). ring.
  - rewrite (Sum_one o opp R i _ q Hqi). + unfold delta. rewrite Nat.eqb_refl. ring.
    + intros c Hc Hne. unfold delta. replace (Nat.eqb q c) with false by (symmetry; apply Nat.eqb_neq; lia). ring.
Qed.

Lemma gauss_jordan_spec :
  (exists m, gauss_jordan o n (augmented o n a) = Ok m /\ inv_i n m) \/
  (gauss_jordan o n (augmented o n a) = Throw /\
   exists i x, i < n /\ x i = 1 /\ forall r, r < n -> Sm n (fun c => a r c * x c) = 0).
Proof.
  unfold gauss_jordan.
  assert (H : forall k i m, Nat.add i k = n -> inv_i i m ->
    (exists m', loop k i (fun i m => do m' <- pivot_row o n i m; Ok (eliminate o n i (scale_row o i m'))) m = Ok m' /\ inv_i n m') \/
    (loop k i (fun i m => do m' <- pivot_row o n i m; Ok (eliminate o n i (scale_row o i m'))) m = Throw /\
     exists i x, i < n /\ x i = 1 /\ forall r, r < n -> Sm n (fun c => a r c * x c) = 0)).
  { induction k as [|k IH]; intros i m Hk Hm.
    - left. exists m. split; [reflexivity|]. replace n with i by lia. exact Hm.
    - cbn [loop]. destruct (pivot_spec i m ltac:(lia) Hm) as [(m' & E & Hm' & Hp)|(E & Hz)].
      + rewrite E. cbn [obind]. apply IH; [lia|]. apply step_inv; [lia|assumption|assumption].
      + right. rewrite E. split; [reflexivity|]. destruct (singular_kernel i m ltac:(lia) Hm Hz) as (x & Hx & Hk0).
        exists i, x. split; [lia|]. auto. }
  apply (H n O); [lia|]. apply inv_start.
Qed.

Lemma inverse_matrix : forall m, inv_i n m -> forall i j, i < n -> j < n ->
  Sm n (fun k => m i (Nat.add k n) * a k j) = delta i j /\ Sm n (fun k => a i k * m k (Nat.add j n)) = delta i j.
Proof.
  intros m [HL HK HU] i j Hi Hj. split. { rewrite <- HL by assumption. now apply HU. }
  set (v := fun r => Sm n (fun k => a r k * m k (Nat.add j n)) - delta r j).
  assert (Hv : v i = 0).
  { apply HK; [|exact Hi]. intros r Hr. unfold v.
    rewrite (Sum_ext o n _ (fun c => m r (Nat.add c n) * Sm n (fun k => a c k * m k (Nat.add j n)) - m r (Nat.add c n) * delta c j))
      by (intros; ring).
    rewrite (Sum_sub o opp R).
    rewrite (Sum_one o opp R n (fun c => m r (Nat.add c n) * delta c j) j Hj).
    2: { intros c Hc Hne. unfold delta. apply Nat.eqb_neq in Hne. rewrite Hne. ring. }
    rewrite (Sum_ext o n _ (fun c => Sm n (fun k => m r (Nat.add c n) * (a c k * m k (Nat.add j n)))))
      by (intros; now rewrite (Sum_mul_l o opp R)).
    rewrite (Sum_swap o opp R).
    rewrite (Sum_ext o n _ (fun k => delta r k * m k (Nat.add j n))).
    - rewrite (Sum_one o opp R n _ r Hr). + unfold delta. rewrite !Nat.eqb_refl. ring.
      + intros c Hc Hne. unfold delta. replace (Nat.eqb r c) with false by (symmetry; apply Nat.eqb_neq; lia). ring.
    - intros k Hk. rewrite <- (HU r k), (HL r k) by lia. rewrite <- (Sum_mul_r o opp R). apply Sum_ext. intros; ring. }
  unfold v in Hv. set (z := Sm n _) in *. assert (z = (z - delta i j) + delta i j) as -> by ring. rewrite Hv. ring.
Qed.

Lemma singular_no_inverse : forall i x b, i < n -> x i = 1 -> 1 <> 0 ->
  (forall r, r < n -> Sm n (fun c => a r c * x c) = 0) ->
  ~ (forall r c, r < n -> c < n -> Sm n (fun k => b r k * a k c) = delta r c).
Proof.
  intros i x b Hi Hx H10 Hk Hb. apply H10. rewrite <- Hx.
  transitivity (Sm n (fun c => delta i c * x c)).
  { rewrite (Sum_one o opp R n _ i Hi). - unfold delta. rewrite Nat.eqb_refl. ring.
    - intros c Hc Hne. unfold delta. replace (Nat.eqb i c) with false by (symmetry; apply Nat.eqb_neq; lia). ring. }
  rewrite (Sum_ext o n _ (fun c => Sm n (fun k => b i k * (a k c * x c)))).
  2: { intros c Hc. rewrite <- Hb by assumption. rewrite <- (Sum_mul_r o opp R). apply Sum_ext. intros; ring. }
  rewrite (Sum_swap o opp R). apply (Sum_zero o opp R). intros k Hk'. rewrite (Sum_mul_l o opp R), Hk by assumption. ring.
Qed.
End Field.
