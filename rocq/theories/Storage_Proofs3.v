From Coq Require Import NArith ZArith List Lia ZifyN ZifyNat ZifyBool Bool.
From Verif Require Import Outcome Float32_Spec HalfFloat_Model HalfFloat_Proofs QuarterFloat_Model QuarterFloat_Proofs QuarterFloat_Proofs2 QuarterFloat_Proofs3
  TensorFile_Model TensorFile_Spec TensorFile_Proofs Storage_Model Storage_Spec Storage_Proofs Storage_Proofs2.
Import ListNotations.
Open Scope N_scope.
Ltac Zify.zify_post_hook ::= Z.div_mod_to_equations.

(** 2^(adj - 2), in which everything is measured; 2^(112-2) <= unit <= 2^(123-2) *)
Definition unit (b : Z) : N := 2^(adj b - 2).
Lemma unit_1 b : ok_bias b -> 2^(adj b - 1) = 2 * unit b.
Proof. intro H. pose proof (adj_range b H). unfold unit. rewrite <- N.pow_succ_r'. f_equal. lia. Qed.
Lemma unit_top b : ok_bias b -> top b = 15 * 2^20 * 2^15 * unit b.
Proof. intro H. pose proof (adj_range b H). unfold top, unit. rewrite <- (N.mul_assoc _ (2^15)). rewrite <- N.pow_add_r. do 2 f_equal. lia. Qed.
Lemma unit_next b : ok_bias b -> ok_bias (b + 1) -> unit b = 2 * unit (b + 1).
Proof. intros H H'. pose proof (adj_range b H). pose proof (adj_range _ H'). unfold unit. rewrite <- N.pow_succ_r'. f_equal. unfold adj in *. lia. Qed.
Lemma unit_15 : unit 15 = 2^110. Proof. reflexivity. Qed.
Lemma unit_small b : (12 <= b)%Z -> ok_bias b -> unit b <= 2^113.
Proof. intros H Hb. unfold unit. apply N.pow_le_mono_r; [lia|]. unfold adj. lia. Qed.

Lemma store_float x b : ok_bias b -> is_float x -> is_float (quarter_store x b).
Proof.
  intros Hb Hx. destruct (ok_good b Hb) as [G _]. split; [|apply (store_bounded x b G); apply Hx].
  pose proof (adj_range b Hb) as A. destruct (store_shape x b Hb Hx) as [(n & Hn & _ & -> & _)|[[[-> _]| ->] _]]; [destruct (f32_sign x)| |]; npows; lia.
Qed.
Lemma shape_mag x b : ok_bias b -> is_float x ->
  (f32_sign (quarter_store x b) = f32_sign x /\ 17 * 2^19 * 2 * unit b <= f32_mag x) \/
  (f32_mag (quarter_store x b) <= (2^23 + 2) * unit b /\ f32_sign (quarter_store x b) = false /\ f32_mag x < 17 * 2^19 * 2 * unit b).
Proof.
  intros Hb Hx. pose proof (adj_range b Hb) as A. pose proof (unit_1 b Hb) as U. destruct (store_shape x b Hb Hx) as [(n & Hn & _ & E & M)|[C M]].
  - left. rewrite U in M. split; [|rewrite <- N.mul_assoc; exact M]. rewrite E. apply sign_assembled. lia.
  - right. rewrite U in M. split; [|split; [|rewrite <- N.mul_assoc; exact M]].
    + destruct C as [[-> _]| ->]; [change (f32_mag 0) with 0; lia|]. destruct (mag_of_tiny (adj b - 1)) as (-> & _); [lia|lia|]. unfold unit.
      replace (adj b - 1 - 1) with (adj b - 2) by lia. lia.
    + destruct C as [[-> _]| ->]; [reflexivity|]. now destruct (mag_of_tiny (adj b - 1)) as (_ & -> & _); [lia|lia|].
Qed.

Lemma quarter_error x b : ok_bias b -> is_float x -> f32_mag x < top b ->
  (16 * distance x (quarter_store x b) <= magnitude x)%Z \/ (distance x (quarter_store x b) <= 13 * 2^21 * Z.of_N (unit b))%Z.
Proof.
  intros Hb Hx Ht. destruct (ok_good b Hb) as [G E]. destruct (shape_mag x b Hb Hx) as [[Sg M]|(M1 & Sg & M2)].
  - left. destruct Hx as [Hx F]. pose proof (store_in_range x b G Hx F) as S. rewrite E in S. fold (adj b) in S. rewrite (unit_1 b Hb) in S.
    pose proof (adj_range b Hb) as A. destruct S as (_ & _ & D); [rewrite N.mul_assoc; exact M| |].
    + rewrite (unit_top b Hb) in Ht. eapply N.lt_le_trans; [exact Ht|]. replace (2^(adj b + 14)) with (2^16 * unit b) by (unfold unit; rewrite <- N.pow_add_r; f_equal; lia).
      rewrite N.mul_assoc. apply N.mul_le_mono_r. vm_compute. discriminate.
    + rewrite distance_same_sign by (symmetry; exact Sg). rewrite magnitude_eq. lia.
  - right. pose proof (distance_le x (quarter_store x b)) as D. npows. change (2^21)%Z with 2097152%Z. lia.
Qed.

Definition tail_of (l : list N) (b : Z) (d : Z) : Prop := (2^14 * d <= one)%Z \/ exists m, In m l /\ (9400 * d <= magnitude m)%Z.
Lemma bias_tail l d : (d <= 13 * 2^21 * Z.of_N (unit (best l)))%Z -> tail_of l (best l) d.
Proof.
  intro H. destruct (best_spec l) as (R & _). unfold tail_of. destruct (Z.eq_dec (best l) 15) as [E|E].
  - left. rewrite E, unit_15 in H. unfold one. change (Z.of_N (2^110)) with (2^110)%Z in H. apply Z.le_trans with (2^14 * (13 * 2^21 * 2^110))%Z; [apply Z.mul_le_mono_nonneg_l; [lia|exact H]|].
    vm_compute. discriminate.
  - right. destruct (best_next l E) as (m & Hm & L). exists m. split; [exact Hm|]. rewrite magnitude_eq.
    assert (R' : ok_bias (best l + 1)) by (unfold ok_bias in *; lia). rewrite (unit_top _ R') in L. rewrite (unit_next _ R R') in H. set (u := unit (best l + 1)) in *. clearbody u.
    change (2^20) with 1048576 in L. change (2^15) with 32768 in L. change (2^21)%Z with 2097152%Z in H. lia.
Qed.

(** Too large *)
Lemma top_4 : Z.of_N (top 4) = (1920 * one)%Z. Proof. reflexivity. Qed.
Lemma store_too_large x : is_float x -> top 4 <= f32_mag x -> f32_units (quarter_store x 4) = (if f32_sign x then - (1920 * one) else 1920 * one)%Z.
Proof.
  intros Hx Ht. assert (Hb : ok_bias 4) by (unfold ok_bias; lia). pose proof (adj_range 4 Hb) as A.
  assert (K : adj 4 * 8 + 119 <= kk x).
  { apply mag_ge_kk; [lia|]. replace ((adj 4 * 8 + 119) mod 8) with 7 by lia. replace ((adj 4 * 8 + 119) / 8 - 1) with (adj 4 + 13) by lia. exact Ht. }
  assert (M0 : top 4 >= 17 * 2^19 * 2 * unit 4) by (vm_compute; discriminate).
  destruct (store_shape x 4 Hb Hx) as [(n & Hn & Hk & -> & _)|[_ M]].
  - assert (En : n = adj 4 * 8 + 119) by lia. rewrite <- top_4. destruct (top_spec 4 Hb) as (_ & Mt & Lt & _). unfold top_bits in *. rewrite <- En in *.
    destruct (f32_sign x).
    + rewrite units_neg by lia. rewrite mag_low. unfold low31. replace ((2^31 + n * 2^20) mod 2^31) with (n * 2^20) by (npows; lia). now rewrite Mt.
    + rewrite N.add_0_l. rewrite units_pos by exact Lt. now rewrite Mt.
  - exfalso. rewrite (unit_1 4 Hb), N.mul_assoc in M. apply N.ge_le in M0. apply (N.lt_irrefl (f32_mag x)). eapply N.lt_le_trans; [exact M|]. eapply N.le_trans; [exact M0|exact Ht].
Qed.

Lemma eight_bits_error t : solid t -> all_elements t is_float ->
  elementwise t (materializeTensor t 8) (fun x y =>
    (magnitude x < 1920 * one)%Z /\
      ((16 * distance x y <= magnitude x)%Z \/ (2 ^ 14 * distance x y <= one)%Z \/ some_element t (fun m => 9400 * distance x y <= magnitude m)%Z) \/
    (1920 * one <= magnitude x)%Z /\ f32_units y = (if f32_sign x then - (1920 * one) else 1920 * one)%Z).
Proof.
  intros Ht H. destruct (eight_bits_elements t Ht H) as (E1 & E2 & E3 & E). repeat split; try assumption. intros r c k Hr Hc Hk. rewrite (E r c k Hr Hc Hk).
  pose proof (H r c k Hr Hc Hk) as Hx. set (x := value t r c k) in *. assert (In x (elements t)) as Hin by (apply in_elements; exists r, c, k; auto). clearbody x.
  destruct (best_spec (elements t)) as (R & _ & W4 & _). pose proof (bias_tail (elements t)) as BT. set (b := best (elements t)) in *.
  rewrite <- top_4, magnitude_eq. destruct (Z.lt_ge_cases (Z.of_N (f32_mag x)) (Z.of_N (top 4))) as [L|L].
  - left. split; [exact L|]. assert (L' : f32_mag x < top b).
    { destruct (Z.eq_dec b 4) as [E4|E4]; [rewrite E4; lia|]. specialize (W4 E4). unfold within in W4. rewrite forallb_forall in W4. specialize (W4 x Hin). lia. }
    destruct (quarter_error x b R Hx L') as [Q|Q]; [left; rewrite <- magnitude_eq; exact Q|right].
    destruct (BT _ Q) as [T|(m & Hm & T)]; [left; exact T|right]. apply in_elements in Hm. destruct Hm as (r' & c' & k' & ? & ? & ? & ->). exists r', c', k'. auto.
  - right. split; [exact L|]. assert (E4 : b = 4%Z).
    { destruct (Z.eq_dec b 4) as [E4|E4]; [exact E4|]. specialize (W4 E4). unfold within in W4. rewrite forallb_forall in W4. specialize (W4 x Hin).
      pose proof (top_antitone 4 b ltac:(unfold ok_bias in R; lia)). lia. }
    rewrite E4, top_4. apply store_too_large; [exact Hx|]. lia.
Qed.
