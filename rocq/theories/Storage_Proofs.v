From Coq Require Import NArith ZArith List Lia ZifyN ZifyNat ZifyBool Bool.
From Verif Require Import Outcome Float32_Spec HalfFloat_Model HalfFloat_Proofs QuarterFloat_Model QuarterFloat_Proofs QuarterFloat_Proofs2 QuarterFloat_Proofs3
  TensorFile_Model Storage_Model Storage_Spec.
Import ListNotations.
Open Scope N_scope.
Ltac Zify.zify_post_hook ::= Z.div_mod_to_equations.

(* ---- patterns ---- *)
Lemma mag_assembled s n : s = 0 \/ s = 2^31 -> 8 <= n < 2040 -> f32_mag (s + n * 2^20) = (8 + n mod 8) * 2^20 * 2^(n / 8 - 1).
Proof.
  intros Hs Hn. assert (E : f32_exp (s + n * 2^20) = n / 8) by (apply exp_assembled; [exact Hs|lia]).
  rewrite mag_bits, E, man_assembled by (try exact Hs; try rewrite E; lia). f_equal. npows. lia.
Qed.
Lemma mag_of_tiny a : 1 <= a -> a < 200 -> f32_mag (a * 2^23 + 2) = (2^23 + 2) * 2^(a - 1) /\ f32_sign (a * 2^23 + 2) = false /\ f32_finite (a * 2^23 + 2) /\ a * 2^23 + 2 < 2^31.
Proof.
  intros H1 H2. assert (E : f32_exp (a * 2^23 + 2) = a) by (unfold f32_exp; npows; lia).
  assert (M : f32_man (a * 2^23 + 2) = 2) by (unfold f32_man; npows; lia).
  assert (L : a * 2^23 + 2 < 2^31) by (npows; lia).
  repeat split; [|now apply sign_pos|unfold f32_finite; lia|exact L]. rewrite mag_bits by lia. now rewrite E, M.
Qed.
Lemma magnitude_eq x : magnitude x = Z.of_N (f32_mag x).
Proof. unfold magnitude, f32_units. destruct (f32_sign x); lia. Qed.
Lemma distance_le x y : (distance x y <= Z.of_N (f32_mag x) + Z.of_N (f32_mag y))%Z.
Proof. unfold distance, f32_units. destruct (f32_sign x), (f32_sign y); lia. Qed.
Lemma distance_same_sign x y : f32_sign x = f32_sign y -> distance x y = Z.abs (Z.of_N (f32_mag y) - Z.of_N (f32_mag x)).
Proof. unfold distance, f32_units. intros ->. destruct (f32_sign y); lia. Qed.
Lemma distance_0 x : distance x x = 0%Z. Proof. unfold distance. lia. Qed.

Definition ok_bias (b : Z) : Prop := (4 <= b <= 15)%Z.
Definition adj (b : Z) : N := Z.to_N (127 - b).
Lemma ok_good b : ok_bias b -> good_bias b /\ effective_bias b = b.
Proof. unfold ok_bias, good_bias. intro H. split; [lia|]. apply (eff_range b); unfold good_bias; lia. Qed.
Lemma adj_range b : ok_bias b -> 112 <= adj b <= 123.
Proof. unfold ok_bias, adj. lia. Qed.

(** The largest value. *)
Definition top (b : Z) : N := 15 * 2^20 * 2^(adj b + 13).
Definition top_bits (b : Z) : N := (adj b * 8 + 119) * 2^20.
Lemma top_spec b : ok_bias b -> Z.to_N (quarterToFloat 119 b) = top_bits b /\ f32_mag (top_bits b) = top b /\ top_bits b < 2^31 /\ f32_exp (top_bits b) = adj b + 14.
Proof.
  intro H. destruct (ok_good b H) as [G E]. pose proof (adj_range b H) as A.
  assert (L : top_bits b < 2^31) by (unfold top_bits; npows; lia).
  assert (Ee : f32_exp (top_bits b) = adj b + 14).
  { unfold top_bits. rewrite <- (N.add_0_l (_ * _)). rewrite exp_assembled by (auto; lia). lia. }
  repeat split; [| |exact L|exact Ee].
  - rewrite dec_closed by (auto; lia). rewrite dec_pos by lia. rewrite E. unfold top_bits, adj in *. zpows. change (2^20)%N with 1048576. lia.
  - unfold top_bits. rewrite <- (N.add_0_l (_ * _)). rewrite mag_assembled by (auto; lia). unfold top.
    replace ((adj b * 8 + 119) / 8 - 1) with (adj b + 13) by lia. replace ((adj b * 8 + 119) mod 8) with 7 by lia. reflexivity.
Qed.

Lemma pow_pos k : 0 < 2^k.
Proof. apply N.neq_0_lt_0, N.pow_nonzero. lia. Qed.
Lemma low_lt x : low31 x < 2^31. Proof. apply N.mod_upper_bound. discriminate. Qed.
Lemma kk_low x : kk x = low31 x / 2^20.
Proof. unfold kk, low31. npows. lia. Qed.
(** At least as large as an assembled number. *)
Lemma mag_ge_kk x n : 8 <= n < 2040 -> (8 + n mod 8) * 2^20 * 2^(n / 8 - 1) <= f32_mag x -> n <= kk x.
Proof.
  intros Hn H. rewrite <- (mag_assembled 0 n (or_introl eq_refl) Hn) in H. rewrite N.add_0_l in H. rewrite (mag_low x) in H.
  rewrite kk_low. pose proof (low_lt x) as L. destruct (mag_le_inv _ _ H) as [C|C]; [npows; lia| |lia]. apply N.div_le_lower_bound; [discriminate|]. lia.
Qed.

(** What is stored. *)
Lemma store_shape x b : ok_bias b -> is_float x -> let s := if f32_sign x then 2^31 else 0 in
  (exists n, adj b * 8 < n <= adj b * 8 + 119 /\ (kk x <= n \/ n = adj b * 8 + 119) /\ quarter_store x b = s + n * 2^20 /\ 17 * 2^19 * 2^(adj b - 1) <= f32_mag x) \/
  (quarter_store x b = 0 /\ f32_sign x = false \/ quarter_store x b = (adj b - 1) * 2^23 + 2) /\ f32_mag x < 17 * 2^19 * 2^(adj b - 1).
Proof.
  intros Hb [Hx F] s. destruct (ok_good b Hb) as [G E]. pose proof (adj_range b Hb) as A.
  pose proof (store_cases x b G Hx F) as C. cbv zeta in C. rewrite E in C. fold (adj b) in C. fold (kk x) in C. fold (uu x) in C. fold s in C.
  pose proof (ku_exp x) as Ek. pose proof (exp_kk x) as Ek2. assert (Hm : f32_man x = kk x mod 8 * 2^20 + (x / 2^19) mod 2 * 2^19 + x mod 2^19).
  { unfold f32_man, kk. npows. clear. lia. }
  destruct C as [[H1 H2]|[[H1 [H2 H3]]|[H1 [H2 H3]]]].
  - left. exists (adj b * 8 + 119). repeat split; [lia|lia|now right|exact H2|].
    rewrite mag_bits by lia. apply N.le_trans with (2^23 * 2^(f32_exp x - 1)); [|apply N.mul_le_mono_r; lia].
    apply N.le_trans with (2^23 * (2 * 2^(adj b - 1))).
    + pose proof (pow_pos (adj b - 1)). npows. lia.
    + apply N.mul_le_mono_l. replace (2 * 2^(adj b - 1)) with (2^(adj b)). * apply N.pow_le_mono_r; lia. * rewrite <- N.pow_succ_r'. f_equal. lia.
  - left. exists (kk x + uu x). repeat split; [exact H2|clear - Ek H1; lia|left; lia|exact H3|].
    rewrite mag_bits by lia. destruct (N.eq_dec (f32_exp x) (adj b)) as [Ea|Ea].
    + rewrite Ea. apply N.mul_le_mono_r. destruct (uu_cases x) as [U|[U [U1 U2]]]; rewrite U in H2; npows; clear - Hm H2 Ek2 Ea U2 || clear - Hm H2 Ek2 Ea; lia.
    + apply N.le_trans with (2^23 * 2^(f32_exp x - 1)); [|apply N.mul_le_mono_r; lia].
      apply N.le_trans with (2^23 * (2 * 2^(adj b - 1))).
      * pose proof (pow_pos (adj b - 1)). npows. lia.
      * apply N.mul_le_mono_l. replace (2 * 2^(adj b - 1)) with (2^(adj b)). -- apply N.pow_le_mono_r; lia. -- rewrite <- N.pow_succ_r'. f_equal. lia.
  - right. split.
    + destruct (f32_sign x) eqn:Sg; cbn [orb] in H3; [right; exact H3|]. destruct (_ && _); [right|left; split]; auto.
    + destruct (N.lt_ge_cases (f32_exp x) (adj b)) as [Ea|Ea].
      * apply N.lt_le_trans with (2^23 * 2^(adj b - 1)); [|apply N.mul_le_mono_r; npows; lia].
        destruct (N.eq_dec (f32_exp x) 0) as [E0|E0].
        -- apply N.lt_le_trans with (2^23 * 1); [rewrite N.mul_1_r; now apply mag_exp0|]. apply N.mul_le_mono_l. pose proof (pow_pos (adj b - 1)). lia.
        -- destruct (mag_exp_bounds x E0) as [_ M]. eapply N.lt_le_trans; [exact M|]. change (2^24) with (2^23 * 2). rewrite <- N.mul_assoc. apply N.mul_le_mono_l.
           rewrite <- N.pow_succ_r'. apply N.pow_le_mono_r; lia.
      * assert (Eq : kk x + uu x = adj b * 8) by (destruct H2; [lia|assumption]). assert (Ee : f32_exp x = adj b) by (rewrite <- Ek, Eq; lia).
        rewrite mag_bits, Ee by lia. apply N.mul_lt_mono_pos_r; [apply pow_pos|].
        assert (U0 : (x / 2^19) mod 2 = 0).
        { revert Eq. unfold uu. destruct ((kk x mod 8 <? 7) && (x / 2 ^ 19 mod 2 =? 1)) eqn:B; intro Eq; [lia|]. assert (kk x mod 8 = 0) by lia. rewrite H in B. cbn in B. clear - B. lia. }
        assert (kk x mod 8 = 0). { revert Eq. unfold uu. rewrite U0, andb_false_r. lia. }
        rewrite Hm, U0, H. npows. clear. lia.
Qed.
