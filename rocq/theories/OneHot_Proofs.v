From Coq Require Import List Bool Arith NArith ZArith Ascii Lia.
From Flocq Require Import IEEE754.Binary IEEE754.Bits.
From Verif Require Import Outcome Chars F32_Model Encode_Model Encode_Proofs Bpe_Model Bpe_Spec Bpe_Reach OneHot_Model.
Import ListNotations.

Lemma vec_set_repeat n (i : nat) : (i < n)%nat ->
  vec_set (repeat f0 n) (Z.of_nat i) f1 = Ok (map (fun k => if Nat.eqb k i then f1 else f0) (seq 0 n)).
Proof.
  intro H. unfold vec_set. rewrite repeat_length.
  replace ((0 <=? Z.of_nat i) && (Z.of_nat i <? Z.of_nat n))%Z with true by (symmetry; rewrite andb_true_iff; lia).
  rewrite Nat2Z.id. f_equal.
  apply nth_ext with (d := f0) (d' := f0).
  { rewrite app_length. cbn [length]. rewrite firstn_length, skipn_length, repeat_length, map_length, seq_length. lia. }
  intros k Hk. rewrite app_length in Hk. cbn [length] in Hk. rewrite firstn_length, skipn_length, repeat_length in Hk.
  assert (E : nth k (map (fun k => if Nat.eqb k i then f1 else f0) (seq 0 n)) f0 = if Nat.eqb k i then f1 else f0).
  { erewrite nth_indep by (rewrite map_length, seq_length; lia).
    rewrite map_nth with (d := 0%nat). rewrite seq_nth by lia. reflexivity. }
  rewrite E. clear E.
  assert (R : forall a, nth a (repeat f0 n) f0 = f0).
  { intro a. destruct (lt_dec a n); [apply nth_repeat|apply nth_overflow; rewrite repeat_length; lia]. }
  assert (L : length (firstn i (repeat f0 n)) = i) by (rewrite firstn_length, repeat_length; lia).
  destruct (Nat.eqb_spec k i) as [->|Hn].
  - rewrite app_nth2 by lia. rewrite L, Nat.sub_diag. reflexivity.
  - destruct (lt_dec k i).
    + rewrite app_nth1 by lia. transitivity (nth k (repeat f0 n) f0); [|apply R].
      rewrite <- (firstn_skipn i (repeat f0 n)) at 2. rewrite app_nth1 by lia. reflexivity.
    + rewrite app_nth2 by lia. rewrite L. replace (k - i)%nat with (S (k - i - 1)) by lia. cbn [nth].
      transitivity (nth k (repeat f0 n) f0); [|apply R].
      rewrite <- (firstn_skipn (S i) (repeat f0 n)) at 2. rewrite app_nth2 by (rewrite firstn_length, repeat_length; lia).
      rewrite firstn_length, repeat_length. f_equal. lia.
Qed.

Lemma repeat_seq {A} (x : A) n s : repeat x n = map (fun _ => x) (seq s n).
Proof. revert s. induction n; intro s; cbn; f_equal; auto. Qed.

Lemma one_hot_code_eq largest c : c <> largest ->
  one_hot_bpe_code largest c = Ok (map (fun k => if Nat.eqb k (N.to_nat c) then f1 else f0) (seq 0 (N.to_nat largest))).
Proof.
  intro H. unfold one_hot_bpe_code. destruct (N.leb_spec c largest).
  - rewrite <- vec_set_repeat by lia. f_equal. lia.
  - f_equal. rewrite (repeat_seq _ _ 0). apply map_ext_in. intros k Hk. apply in_seq in Hk.
    destruct (Nat.eqb_spec k (N.to_nat c)); [lia|reflexivity].
Qed.

Lemma one_hot_code_ub c : one_hot_bpe_code c c = UB.
Proof.
  unfold one_hot_bpe_code. rewrite N.leb_refl. unfold vec_set. rewrite repeat_length.
  replace ((0 <=? Z.of_N c) && (Z.of_N c <? Z.of_nat (N.to_nat c)))%Z with false; [reflexivity|].
  symmetry. apply andb_false_iff. right. lia.
Qed.

Lemma omapM_map_ok {A B} (f : A -> outcome B) g l : (forall x, In x l -> f x = Ok (g x)) -> omapM f l = Ok (map g l).
Proof.
  induction l as [|x l IH]; intro H; [reflexivity|]. cbn [omapM map]. rewrite (H x) by now left. cbn [obind].
  rewrite IH by (intros; apply H; now right). reflexivity.
Qed.

Lemma omapM_ub {A B} (f : A -> outcome B) l : (exists x, In x l /\ f x = UB) -> (forall x, In x l -> f x <> Throw) ->
  omapM f l = UB.
Proof.
  induction l as [|x l IH]; intros (y & Hy & E) H; [destruct Hy|]. cbn [omapM].
  destruct (f x) as [v| |] eqn:F; cbn [obind]; [|exfalso; apply (H x); [now left|exact F]|reflexivity].
  destruct Hy as [->|Hy]; [congruence|]. rewrite IH; [reflexivity|eauto|intros; apply H; now right].
Qed.
