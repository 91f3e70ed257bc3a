From Coq Require Import NArith ZArith List Lia ZifyN ZifyNat ZifyBool Bool.
From Verif Require Import Outcome Float32_Spec HalfFloat_Model HalfFloat_Proofs QuarterFloat_Model QuarterFloat_Proofs QuarterFloat_Proofs2 QuarterFloat_Proofs3
  TensorFile_Model TensorFile_Spec TensorFile_Proofs Storage_Model Storage_Spec Storage_Proofs Storage_Proofs2 Storage_Proofs3.
Import ListNotations.
Open Scope N_scope.
Ltac Zify.zify_post_hook ::= Z.div_mod_to_equations.

(** Through 16 bits. *)
Definition halved (x : N) : N := halfToFloat (floatToHalf x).
Lemma halved_eq x : is_float x -> halved x = x / 2^16 * 2^16.
Proof.
  intros [H F]. unfold halved. rewrite half_finite by auto. rewrite halfToFloat_eq; [reflexivity|]. change (2^16) with 65536. npows. lia.
Qed.
Lemma assembled_float (c : bool) n : 8 <= n < 2040 -> is_float ((if c then 2^31 else 0) + n * 2^20).
Proof.
  intro H. split; [destruct c; npows; lia|]. unfold f32_finite. rewrite exp_assembled by (destruct c; auto; lia). lia.
Qed.
Lemma halved_assembled (c : bool) n : 8 <= n < 2040 -> halved ((if c then 2^31 else 0) + n * 2^20) = (if c then 2^31 else 0) + n * 2^20.
Proof. intro H. rewrite halved_eq by (now apply assembled_float). change (2^16) with 65536. destruct c; npows; lia. Qed.
Lemma halved_tiny a : 1 <= a < 200 -> halved (a * 2^23 + 2) = (a * 8) * 2^20.
Proof. intro H. rewrite halved_eq. - change (2^16) with 65536. npows. lia. - destruct (mag_of_tiny a) as (_ & _ & F & L); try lia. split; [npows; lia|exact F]. Qed.

(** An assembled number is stored exactly or underflows. *)
Lemma store_assembled (c : bool) n b : ok_bias b -> 8 <= n < 2040 -> n <= adj b * 8 + 119 ->
  quarter_store ((if c then 2^31 else 0) + n * 2^20) b =
    if adj b * 8 <? n then (if c then 2^31 else 0) + n * 2^20 else if c || (115 <=? n / 8) then (adj b - 1) * 2^23 + 2 else 0.
Proof.
  intros Hb Hn Hm. destruct (ok_good b Hb) as [G E]. pose proof (adj_range b Hb) as A. set (x := (if c then 2^31 else 0) + n * 2^20).
  destruct (assembled_float c n Hn) as [Hx F]. fold x in Hx, F. pose proof (store_cases x b G Hx F) as C. cbv zeta in C. rewrite E in C. fold (adj b) in C. fold (kk x) in C. fold (uu x) in C.
  assert (Ek : kk x = n) by (unfold kk, x; destruct c; npows; lia). assert (Eu : uu x = 0). { unfold uu. replace (x / 2^19 mod 2) with 0; [now rewrite andb_false_r|]. unfold x. destruct c; npows; lia. }
  assert (Es : f32_sign x = c) by (apply sign_assembled; lia). assert (Ee : f32_exp x = n / 8) by (apply exp_assembled; [destruct c; auto|lia]).
  rewrite Es, Ee, Ek, Eu, N.add_0_r in C. fold x in C. destruct C as [[H1 H2]|[[H1 [H2 H3]]|[H1 [H2 H3]]]].
  - lia.
  - destruct (adj b * 8 <? n) eqn:L; [|lia]. exact H3.
  - destruct (adj b * 8 <? n) eqn:L; [lia|]. rewrite H3. replace (0 <? x) with true; [reflexivity|]. unfold x. destruct c; npows; lia.
Qed.

(** Stored, and through 16 bits. *)
Lemma stored_halved x b : ok_bias b -> is_float x -> is_float (halved (quarter_store x b)) /\ f32_mag (halved (quarter_store x b)) <= top b.
Proof.
  intros Hb Hx. pose proof (store_float x b Hb Hx) as [Hy F]. destruct (ok_good b Hb) as [G E]. split.
  - rewrite halved_eq by (split; assumption). split; [change (2^16) with 65536; npows; lia|]. unfold f32_finite. rewrite exp_half. exact F.
  - destruct (store_bounded x b G) as [_ B]; try apply Hx. rewrite E in B. fold (adj b) in B. eapply N.le_trans; [|exact B]. unfold halved. rewrite half_finite by auto.
    rewrite halfToFloat_eq by (change (2^16) with 65536; npows; lia). pose proof (half_mag_le (quarter_store x b) Hy F) as M. rewrite half_finite in M by auto.
    rewrite halfToFloat_eq in M by (change (2^16) with 65536; npows; lia). exact M.
Qed.
Lemma big_stays x b : ok_bias b -> ok_bias (b + 1) -> is_float x -> top (b + 1) <= f32_mag x -> top (b + 1) <= f32_mag (halved (quarter_store x b)).
Proof.
  intros Hb Hb' Hx Ht. pose proof (adj_range b Hb) as A. assert (Ea : adj b = adj (b + 1) + 1) by (unfold adj, ok_bias in *; lia).
  assert (K : adj b * 8 + 111 <= kk x).
  { apply mag_ge_kk; [lia|]. replace ((adj b * 8 + 111) mod 8) with 7 by lia. replace ((adj b * 8 + 111) / 8 - 1) with (adj (b + 1) + 13) by lia. exact Ht. }
  destruct (store_shape x b Hb Hx) as [(n & Hn & Hk & -> & _)|[_ M]].
  - rewrite halved_assembled by lia. rewrite mag_low. destruct (top_spec (b + 1) Hb') as (_ & <- & Lt & _).
    assert (El : low31 ((if f32_sign x then 2 ^ 31 else 0) + n * 2 ^ 20) = n * 2^20) by (unfold low31; destruct (f32_sign x); npows; lia). rewrite El.
    apply mag_mono; [|npows; lia]. unfold top_bits. apply N.mul_le_mono_r. lia.
  - exfalso. rewrite (unit_1 b Hb) in M. rewrite (unit_top _ Hb') in Ht. rewrite (unit_next b Hb Hb') in M. set (u := unit (b + 1)) in *. clearbody u. change (2^20) with 1048576 in *. change (2^15) with 32768 in *. change (2^19) with 524288 in *. lia.
Qed.

Lemma reload_bias l l2 : Forall is_float l ->
  (forall x, In x l -> In (halved (quarter_store x (best l))) l2) ->
  (forall z, In z l2 -> exists x, In x l /\ z = halved (quarter_store x (best l))) ->
  best l2 = best l \/ (best l <> 4%Z /\ best l2 = (best l - 1)%Z /\ exists z, In z l2 /\ top (best l) <= f32_mag z).
Proof.
  intros F I1 I2. destruct (best_spec l) as (R & _). destruct (best_spec l2) as (R2 & B2 & W2 & _). set (b := best l) in *. set (b' := best l2) in *.
  assert (U : (b' <= b)%Z).
  { destruct (Z.le_gt_cases b' b) as [H|H]; [exact H|]. exfalso. assert (N4 : b' <> 4%Z) by (unfold ok_bias in *; lia). specialize (W2 N4).
    assert (N15 : b <> 15%Z) by (unfold ok_bias in *; lia). destruct (best_next l N15) as (x & Hx & L). fold b in L. assert (Rb : ok_bias (b + 1)) by (unfold ok_bias in *; lia).
    rewrite Forall_forall in F. pose proof (big_stays x b R Rb (F x Hx) L) as L2. apply (within_antitone (b + 1)) in W2; [|lia]. unfold within in W2. rewrite forallb_forall in W2.
    specialize (W2 _ (I1 x Hx)). lia. }
  destruct (Z.eq_dec b' b) as [E|E]; [left; exact E|right]. assert (N4 : b <> 4%Z) by (unfold ok_bias in *; lia). split; [exact N4|].
  assert (Rb : ok_bias (b - 1)) by (unfold ok_bias in *; lia). assert (W : within (b - 1) l2 = true).
  { unfold within. apply forallb_forall. intros z Hz. destruct (I2 z Hz) as (x & Hx & ->). rewrite Forall_forall in F. destruct (stored_halved x b R (F x Hx)) as [_ M].
    apply N.ltb_lt. eapply N.le_lt_trans; [exact M|]. rewrite (unit_top _ R), (unit_top _ Rb). rewrite (unit_next (b - 1) Rb) by (replace (b - 1 + 1)%Z with b by lia; exact R).
    replace (b - 1 + 1)%Z with b by lia. pose proof (pow_pos (adj b - 2)) as P. fold (unit b) in P. set (u := unit b) in *. clearbody u. change (2^20) with 1048576. change (2^15) with 32768. lia. }
  split; [specialize (B2 _ Rb W); lia|]. apply not_within. destruct (within b l2) eqn:Wb; [|reflexivity]. specialize (B2 _ R Wb). lia.
Qed.

(** One element. *)
Lemma reload_same_bias x b : ok_bias b -> is_float x -> let y := quarter_store x b in let z := quarter_store (halved y) b in
  z = y \/ ((12 <= b)%Z /\ z = 0 /\ f32_mag y = (2^23 + 2) * unit b).
Proof.
  intros Hb Hx. cbv zeta. pose proof (adj_range b Hb) as A. destruct (store_shape x b Hb Hx) as [(n & Hn & _ & -> & _)|[[[-> _]| ->] _]].
  - left. rewrite halved_assembled by lia. rewrite store_assembled by (auto; lia). destruct (adj b * 8 <? n) eqn:L; [reflexivity|lia].
  - left. change (halved 0) with 0. assert (F0 : is_float 0) by (split; reflexivity). destruct (store_shape 0 b Hb F0) as [(n & _ & _ & _ & M)|[[[-> _]|E] _]]; [|reflexivity|].
    + change (f32_mag 0) with 0 in M. exfalso. pose proof (pow_pos (adj b - 1)). npows. lia.
    + destruct (ok_good b Hb) as [G Ef]. pose proof (store_cases 0 b G eq_refl eq_refl) as C. cbv zeta in C. rewrite Ef in C. fold (adj b) in C. change (f32_exp 0) with 0 in C. change (f32_sign 0) with false in C.
      change (0 <? 0) with false in C. cbn [orb andb] in C. destruct C as [[H _]|[[H _]|[_ [_ H]]]]; [lia|lia|exact H].
  - assert (T : 1 <= adj b - 1 < 200) by lia. rewrite halved_tiny by exact T. rewrite <- (N.add_0_l (_ * 2^20)). rewrite (store_assembled false) by (auto; lia).
    destruct (adj b * 8 <? (adj b - 1) * 8) eqn:L; [lia|]. cbn [orb]. destruct (115 <=? (adj b - 1) * 8 / 8) eqn:E; [left; reflexivity|right]. repeat split.
    + unfold adj, ok_bias in *. lia.
    + destruct (mag_of_tiny (adj b - 1)) as (-> & _); [lia|lia|]. unfold unit. replace (adj b - 1 - 1) with (adj b - 2) by lia. reflexivity.
Qed.
Lemma reload_next_bias x b : ok_bias b -> ok_bias (b - 1) -> is_float x -> let y := quarter_store x b in let z := quarter_store (halved y) (b - 1) in
  z = y \/ (f32_mag y <= 2^25 * unit b /\ f32_mag z <= (2^24 + 4) * unit b).
Proof.
  intros Hb Hb' Hx. cbv zeta. pose proof (adj_range b Hb) as A. assert (Ea : adj (b - 1) = adj b + 1) by (unfold adj, ok_bias in *; lia).
  assert (Un : unit (b - 1) = 2 * unit b). { rewrite (unit_next (b - 1)) by (auto; replace (b - 1 + 1)%Z with b by lia; exact Hb). now replace (b - 1 + 1)%Z with b by lia. }
  assert (T' : f32_mag ((adj (b - 1) - 1) * 2^23 + 2) <= (2^24 + 4) * unit b).
  { destruct (mag_of_tiny (adj (b - 1) - 1)) as (-> & _); [lia|lia|]. replace (adj (b - 1) - 1 - 1) with (adj (b - 1) - 2) by lia. fold (unit (b - 1)). rewrite Un. npows. change (2^24) with 16777216. lia. }
  assert (Z0 : f32_mag 0 <= (2^24 + 4) * unit b) by (change (f32_mag 0) with 0; lia).
  destruct (store_shape x b Hb Hx) as [(n & Hn & _ & -> & _)|[[[-> _]| ->] _]].
  - rewrite halved_assembled by lia. rewrite store_assembled by (auto; lia). destruct (adj (b - 1) * 8 <? n) eqn:L; [left; reflexivity|right]. split.
    + rewrite mag_low. assert (El : low31 ((if f32_sign x then 2 ^ 31 else 0) + n * 2 ^ 20) = n * 2^20) by (unfold low31; destruct (f32_sign x); npows; lia). rewrite El.
      apply N.le_trans with (f32_mag ((adj (b - 1) * 8) * 2^20)); [apply mag_mono; [apply N.mul_le_mono_r; lia|npows; lia]|].
      rewrite <- (N.add_0_l (_ * 2^20)). rewrite mag_assembled by (auto; lia). replace (adj (b - 1) * 8 mod 8) with 0 by lia. replace (adj (b - 1) * 8 / 8 - 1) with (adj b - 2 + 2) by lia.
      rewrite N.pow_add_r. fold (unit b). change (2^2) with 4. change (2^25) with 33554432. npows. lia.
    + destruct (_ || _); assumption.
  - right. change (f32_mag 0) with 0. split; [lia|]. change (halved 0) with 0. assert (F0 : is_float 0) by (split; reflexivity).
    destruct (shape_mag 0 (b - 1) Hb' F0) as [[_ M]|(M & _)]; [exfalso; change (f32_mag 0) with 0 in M; pose proof (pow_pos (adj b - 2)) as P; fold (unit b) in P; rewrite Un in M; npows; lia|].
    eapply N.le_trans; [exact M|]. rewrite Un. npows. change (2^24) with 16777216. lia.
  - right. assert (T : 1 <= adj b - 1 < 200) by lia. split.
    + destruct (mag_of_tiny (adj b - 1)) as (-> & _); [lia|lia|]. replace (adj b - 1 - 1) with (adj b - 2) by lia. fold (unit b). change (2^25) with 33554432. npows. lia.
    + rewrite halved_tiny by exact T. rewrite <- (N.add_0_l (_ * 2^20)). rewrite (store_assembled false) by (auto; lia). destruct (_ <? _) eqn:L; [lia|]. destruct (_ || _); assumption.
Qed.
