From Coq Require Import NArith ZArith List Lia ZifyN ZifyNat ZifyBool Bool.
From Verif Require Import Outcome Float32_Spec HalfFloat_Model HalfFloat_Proofs QuarterFloat_Model QuarterFloat_Proofs QuarterFloat_Proofs2 QuarterFloat_Proofs3
  TensorFile_Model TensorFile_Spec TensorFile_Proofs Storage_Model Storage_Spec Storage_Proofs Storage_Proofs2 Storage_Proofs3 Storage_Proofs4.
Import ListNotations.
Open Scope N_scope.
Ltac Zify.zify_post_hook ::= Z.div_mod_to_equations.

Lemma copy_every {A} (f : N -> A) (P : A -> Prop) t : all_elements t (fun x => P (f x)) -> every P (copy f t).
Proof.
  intro H. unfold every, copy. rewrite Forall_map. apply Forall_forall. intros k Hk. rewrite Forall_map. apply Forall_forall. intros r Hr. rewrite Forall_map. apply Forall_forall. intros c Hc.
  apply in_seq in Hk, Hr, Hc. apply H; lia.
Qed.
Lemma map3_copy {A B} (f : A -> B) (g : N -> A) t : map3 f (copy g t) = copy (fun x => f (g x)) t.
Proof. unfold map3, copy. rewrite map_map. apply map_ext. intro k. rewrite map_map. apply map_ext. intro r. now rewrite map_map. Qed.

Lemma save_and_load m : fits_file m -> all_elements m (fun x => x < 2^32) -> exists bytes, save m = Ok bytes /\
  loadTensor bytes 8 = Ok (materializeTensor (HalfTensor m) 8) /\ loadTensor bytes 16 = Ok (HalfTensor m) /\ loadTensor bytes 32 = Ok (FullTensor m).
Proof.
  intros (H1 & H2 & H3) H. pose proof (copy_box (fun x => x) m) as B. pose proof (copy_every (fun x => x) (fun x => x < 2^32) m H) as Ev.
  destruct (save_load store_half _ _ _ _ [] B Ev H1 H2 H3) as (bs & E & L). destruct (save_load store_full _ _ _ _ [] B Ev H1 H2 H3) as (bs' & E' & L').
  rewrite E in E'. injection E' as <-. rewrite app_nil_r in L, L'. exists bs. split; [exact E|]. unfold loadTensor.
  change (8 =? 16) with false. change (8 =? 8) with true. change (16 =? 16) with true. change (32 =? 16) with false. change (32 =? 8) with false. cbv iota.
  rewrite L, L'. cbn [obind fst]. rewrite !map3_copy. repeat split.
Qed.

Lemma elementwise_trans t s u (R S T : N -> N -> Prop) : elementwise t s R -> elementwise s u S -> (forall x y z, R x y -> S y z -> T x z) -> elementwise t u T.
Proof.
  intros (A1 & A2 & A3 & A) (B1 & B2 & B3 & B) H. repeat split; [congruence|congruence|congruence|]. intros r c k Hr Hc Hk. eapply H; [apply A; assumption|]. apply B; congruence.
Qed.
Lemma elementwise_solid t s R : elementwise t s R -> solid t -> solid s.
Proof. intros (A1 & A2 & A3 & _) (B1 & B2 & B3). unfold solid. lia. Qed.
Lemma elementwise_all t s R (P Q : N -> Prop) : elementwise t s R -> all_elements t P -> (forall x y, P x -> R x y -> Q y) -> all_elements s Q.
Proof. intros (A1 & A2 & A3 & A) H I r c k Hr Hc Hk. rewrite A1 in Hr. rewrite A2 in Hc. rewrite A3 in Hk. eapply I; [apply H|apply A]; assumption. Qed.
Lemma elementwise_elements t s f : elementwise t s (fun x y => y = f x) ->
  (forall x, In x (elements t) -> In (f x) (elements s)) /\ (forall z, In z (elements s) -> exists x, In x (elements t) /\ z = f x).
Proof.
  intros (A1 & A2 & A3 & A). split.
  - intros x Hx. apply in_elements in Hx. destruct Hx as (r & c & k & Hr & Hc & Hk & ->). apply in_elements. exists r, c, k. rewrite (A r c k Hr Hc Hk). repeat split; lia.
  - intros z Hz. apply in_elements in Hz. destruct Hz as (r & c & k & Hr & Hc & Hk & ->). rewrite A1 in Hr. rewrite A2 in Hc. rewrite A3 in Hk. exists (value t r c k). split; [|now apply A].
    apply in_elements. exists r, c, k. auto.
Qed.

Section Reload.
Context (t : tensor) (Ht : solid t) (Hf : fits_file t) (H : all_elements t is_float).
Let b := best (elements t).
Let m := materializeTensor t 8.
Let h := HalfTensor m.
Let b' := best (elements h).

Lemma m_elements : elementwise t m (fun x y => y = quarter_store x b).
Proof. exact (eight_bits_elements t Ht H). Qed.
Lemma m_floats : all_elements m is_float.
Proof. apply (elementwise_all _ _ _ is_float is_float m_elements H). intros x y Hx ->. apply store_float; [apply (best_spec (elements t))|exact Hx]. Qed.
Lemma m_solid : solid m. Proof. exact (elementwise_solid _ _ _ m_elements Ht). Qed.
Lemma h_elements : elementwise t h (fun x y => y = halved (quarter_store x b)).
Proof. eapply elementwise_trans; [exact m_elements|exact (stored_copy halfToFloat floatToHalf m m_solid)|]. intros x y z -> ->. reflexivity. Qed.
Lemma h_floats : all_elements h is_float.
Proof. apply (elementwise_all _ _ _ is_float is_float h_elements H). intros x y Hx ->. apply stored_halved; [apply (best_spec (elements t))|exact Hx]. Qed.
Lemma h_solid : solid h. Proof. exact (elementwise_solid _ _ _ h_elements Ht). Qed.
Lemma loaded_elements : elementwise t (materializeTensor h 8) (fun x z => z = quarter_store (halved (quarter_store x b)) b').
Proof. eapply elementwise_trans; [exact h_elements|exact (eight_bits_elements h h_solid h_floats)|]. intros x y z -> ->. reflexivity. Qed.
Lemma m_file : exists bytes, save m = Ok bytes /\ loadTensor bytes 8 = Ok (materializeTensor h 8).
Proof.
  destruct (save_and_load m) as (bytes & E & L & _); [|intros r c k Hr Hc Hk; apply (m_floats r c k Hr Hc Hk)|exists bytes; auto].
  destruct m_elements as (E1 & E2 & E3 & _). unfold fits_file. rewrite E1, E2, E3. exact Hf.
Qed.
Lemma bias_after : b' = b \/ (b <> 4%Z /\ b' = (b - 1)%Z /\ exists y, In y (elements m) /\ top b <= f32_mag y).
Proof.
  destruct (elementwise_elements _ _ _ h_elements) as [I1 I2]. destruct (reload_bias (elements t) (elements h)) as [E|(N4 & E & z & Hz & L)]; [apply all_in; exact H|exact I1|exact I2|left; exact E|right].
  split; [exact N4|]. split; [exact E|]. destruct (I2 z Hz) as (x & Hx & ->). exists (quarter_store x b). split; [apply (elementwise_elements _ _ _ m_elements); exact Hx|].
  eapply N.le_trans; [exact L|]. apply all_in in H. rewrite Forall_forall in H. destruct (store_float x b ltac:(apply (best_spec (elements t))) (H x Hx)) as [Hy F].
  unfold halved. exact (half_mag_le _ Hy F).
Qed.

Lemma reload_close : elementwise m (materializeTensor h 8) (fun y z => z = y \/ (2^12 * distance y z < one)%Z \/ some_element m (fun w => 10000 * distance y z <= magnitude w)%Z).
Proof.
  destruct m_elements as (A1 & A2 & A3 & A). destruct loaded_elements as (B1 & B2 & B3 & B). repeat split; [congruence|congruence|congruence|].
  intros r c k Hr Hc Hk. rewrite A1 in Hr. rewrite A2 in Hc. rewrite A3 in Hk. rewrite (A r c k Hr Hc Hk), (B r c k Hr Hc Hk). pose proof (H r c k Hr Hc Hk) as Hx. set (x := value t r c k) in *. clearbody x.
  assert (R : ok_bias b) by apply (best_spec (elements t)). destruct bias_after as [E|(N4 & E & w & Hw & L)]; rewrite E.
  - destruct (reload_same_bias x b R Hx) as [S|(S1 & S2 & S3)]; cbv zeta in *; [left; exact S|right; left]. rewrite S2. pose proof (distance_le (quarter_store x b) 0) as D. rewrite S3 in D. change (f32_mag 0) with 0 in D.
    pose proof (unit_small b S1 R) as U. unfold one. change (2^149)%Z with (2^12 * (16777216 * 2^113))%Z. apply Z.mul_lt_mono_pos_l; [lia|].
    set (u := unit b) in *. change (2^113)%Z with (Z.of_N (2^113)). set (p := 2^113) in *. assert (0 < p) by (vm_compute; reflexivity). clearbody u p. npows. lia.
  - assert (R' : ok_bias (b - 1)) by (unfold ok_bias in *; lia). destruct (reload_next_bias x b R R' Hx) as [S|(S1 & S2)]; cbv zeta in *; [left; exact S|right; right].
    apply in_elements in Hw. destruct Hw as (r' & c' & k' & Hr' & Hc' & Hk' & ->). exists r', c', k'. repeat split; try assumption. rewrite magnitude_eq. rewrite (unit_top b R) in L.
    pose proof (distance_le (quarter_store x b) (quarter_store (halved (quarter_store x b)) (b - 1))) as D. set (u := unit b) in *. clearbody u.
    change (2^25) with 33554432 in *. change (2^24) with 16777216 in *. change (2^20) with 1048576 in *. change (2^15) with 32768 in *. lia.
Qed.

(** Nothing changes. *)
Lemma reload_exact : (b < 12)%Z -> b' = b -> elementwise m (materializeTensor h 8) (fun y z => z = y).
Proof.
  intros Hb E. destruct m_elements as (A1 & A2 & A3 & A). destruct loaded_elements as (B1 & B2 & B3 & B). repeat split; [congruence|congruence|congruence|].
  intros r c k Hr Hc Hk. rewrite A1 in Hr. rewrite A2 in Hc. rewrite A3 in Hk. rewrite (A r c k Hr Hc Hk), (B r c k Hr Hc Hk), E.
  destruct (reload_same_bias (value t r c k) b ltac:(apply (best_spec (elements t))) (H r c k Hr Hc Hk)) as [S|(S1 & _)]; [exact S|lia].
Qed.

(** A small negative element. *)
Lemma reload_negative r c k : (12 <= b)%Z -> (r < rows t)%nat -> (c < cols t)%nat -> (k < chans t)%nat ->
  f32_sign (value t r c k) = true -> (2^15 * magnitude (value t r c k) < one)%Z ->
  (0 < f32_units (value m r c k))%Z /\ value (materializeTensor h 8) r c k = 0.
Proof.
  intros Hb Hr Hc Hk Sg M. destruct m_elements as (_ & _ & _ & A). destruct loaded_elements as (_ & _ & _ & B). rewrite (A r c k Hr Hc Hk), (B r c k Hr Hc Hk).
  pose proof (H r c k Hr Hc Hk) as Hx. set (x := value t r c k) in *. clearbody x. assert (R : ok_bias b) by apply (best_spec (elements t)). pose proof (adj_range b R) as Ad.
  assert (Small : f32_mag x < 17 * 2^19 * 2 * unit b).
  { rewrite magnitude_eq in M. assert (U : 2^110 <= unit b) by (unfold unit; apply N.pow_le_mono_r; lia). unfold one in M. change (2^149)%Z with (2^15 * (16777216 * Z.of_N (2^110)))%Z in M.
    apply Z.mul_lt_mono_pos_l in M; [|lia]. set (u := unit b) in *. set (p := 2^110) in *. clearbody u p. npows. lia. }
  assert (E : quarter_store x b = (adj b - 1) * 2^23 + 2).
  { destruct (store_shape x b R Hx) as [(n & _ & _ & _ & L)|[[[_ C]|C] _]]; [|congruence|exact C]. rewrite (unit_1 b R), N.mul_assoc in L. lia. }
  rewrite E. assert (T : 1 <= adj b - 1 < 200) by lia. destruct (mag_of_tiny (adj b - 1)) as (Mt & _ & _ & Lt); [lia|lia|]. split.
  - rewrite (units_pos _ Lt), Mt. pose proof (pow_pos (adj b - 1 - 1)). npows. lia.
  - rewrite (halved_tiny _ T). assert (R' : ok_bias b') by apply (best_spec (elements h)). rewrite <- (N.add_0_l (_ * 2^20)).
    assert (L : adj b <= adj b' /\ adj b <= 115) by (destruct bias_after as [->|(_ & -> & _)]; unfold adj, ok_bias in *; lia).
    rewrite (store_assembled false) by (auto; lia). destruct (adj b' * 8 <? (adj b - 1) * 8) eqn:Q; [lia|]. cbn [orb]. destruct (115 <=? (adj b - 1) * 8 / 8) eqn:Q2; [lia|reflexivity].
Qed.
End Reload.

(** The bias, from the sizes. *)
Lemma top_size b : ok_bias b -> (b <= 14)%Z -> (16 * Z.of_N (top b) = 30 * 2^(14 - b) * one)%Z.
Proof.
  intros H H14. unfold top. assert (P : Z.of_N (2^(adj b + 13)) = (2^(14 - b) * 2^126)%Z).
  { rewrite N2Z.inj_pow, <- Z.pow_add_r by (unfold ok_bias in H; lia). change (Z.of_N 2) with 2%Z. f_equal. unfold adj, ok_bias in *. lia. }
  rewrite N2Z.inj_mul, P. set (p := (2^(14 - b))%Z). clearbody p. unfold one. change (2^149)%Z with (8388608 * 2^126)%Z. set (q := (2^126)%Z). clearbody q.
  change (Z.of_N (15 * 2^20)) with 15728640%Z. ring.
Qed.
Lemma bias_from_sizes l k : (3 <= k <= 10)%Z -> (exists x, In x l /\ (15 * 2^k * one <= 16 * magnitude x)%Z) ->
  (best l <= 14 - k)%Z /\ ((forall x, In x l -> (16 * magnitude x < 29 * 2^k * one)%Z) -> best l = (14 - k)%Z).
Proof.
  intros Hk (x & Hx & L). destruct (best_spec l) as (R & B & W & _).
  assert (U : (best l <= 14 - k)%Z).
  { destruct (Z.le_gt_cases (best l) (14 - k)) as [C|C]; [exact C|]. exfalso. assert (N4 : best l <> 4%Z) by (unfold ok_bias in *; lia). specialize (W N4). apply (within_antitone (15 - k)) in W; [|lia].
    unfold within in W. rewrite forallb_forall in W. specialize (W x Hx). rewrite magnitude_eq in L. pose proof (top_size (15 - k) ltac:(unfold ok_bias; lia) ltac:(lia)) as T.
    replace (14 - (15 - k))%Z with (k - 1)%Z in T by lia. assert (P : (2^k = 2 * 2^(k - 1))%Z) by (rewrite <- Z.pow_succ_r by lia; f_equal; lia). rewrite P in L.
    set (p := (2^(k - 1))%Z) in *. clearbody p. set (o := one) in *. clearbody o. assert (T2 : (16 * Z.of_N (top (15 - k)) = 15 * (2 * p) * o)%Z) by (rewrite T; ring). lia. }
  split; [exact U|]. intro A. assert (Wk : within (14 - k) l = true).
  { unfold within. apply forallb_forall. intros y Hy. specialize (A y Hy). rewrite magnitude_eq in A. pose proof (top_size (14 - k) ltac:(unfold ok_bias; lia) ltac:(lia)) as T. replace (14 - (14 - k))%Z with k in T by lia.
    assert (0 < 2^k * one)%Z by (apply Z.mul_pos_pos; [apply Z.pow_pos_nonneg; lia|reflexivity]). rewrite <- Z.mul_assoc in A, T. set (p := (2^k * one)%Z) in *. clearbody p. lia. }
  specialize (B (14 - k)%Z ltac:(unfold ok_bias; lia) Wk). lia.
Qed.
Lemma bias_small l : (forall x, In x l -> (2 * magnitude x < 15 * one)%Z) -> (12 <= best l)%Z.
Proof.
  intro A. destruct (best_spec l) as (R & B & _). apply B; [unfold ok_bias; lia|]. unfold within. apply forallb_forall. intros y Hy. specialize (A y Hy). rewrite magnitude_eq in A.
  pose proof (top_size 12 ltac:(unfold ok_bias; lia) ltac:(lia)) as T. change (2^(14 - 12))%Z with 4%Z in T. set (o := one) in *. clearbody o. lia.
Qed.
Lemma store_below_top x b : ok_bias b -> (b <= 14)%Z -> is_float x -> (16 * magnitude x < 29 * 2^(14 - b) * one)%Z -> f32_mag (quarter_store x b) < top b.
Proof.
  intros Hb H14 Hx L. destruct (ok_good b Hb) as [G E]. pose proof (adj_range b Hb) as A. pose proof (top_size b Hb H14) as T. rewrite magnitude_eq in L.
  assert (L' : f32_mag x < 29 * 2^19 * 2^(adj b + 13)).
  { unfold top in T. rewrite <- Z.mul_assoc in L, T. set (p := (2^(14 - b) * one)%Z) in *. clearbody p. set (q := 2^(adj b + 13)) in *. clearbody q. npows. lia. }
  destruct Hx as [Hx F]. pose proof (store_cases x b G Hx F) as C. cbv zeta in C. rewrite E in C. fold (adj b) in C. fold (kk x) in C. fold (uu x) in C.
  pose proof (ku_exp x) as Ek. pose proof (exp_kk x) as Ek2. assert (Hm : f32_man x = kk x mod 8 * 2^20 + (x / 2^19) mod 2 * 2^19 + x mod 2^19).
  { unfold f32_man, kk. npows. clear. lia. }
  assert (Ex : f32_exp x < adj b + 15).
  { apply exp_of_mag_lt; [lia|]. eapply N.lt_le_trans; [exact L'|]. replace (adj b + 15 - 1) with (N.succ (adj b + 13)) by lia. rewrite N.pow_succ_r'. rewrite N.mul_assoc. apply N.mul_le_mono_r. npows. lia. }
  destruct C as [[H1 H2]|[[H1 [H2 H3]]|[H1 [H2 H3]]]].
  - lia.
  - rewrite H3. assert (N118 : kk x + uu x <= adj b * 8 + 118).
    { destruct (N.eq_dec (f32_exp x) (adj b + 14)) as [Ee|Ee]; [|clear - Ek H1 Ee; lia]. rewrite mag_bits in L' by lia. rewrite Ee in L'. replace (adj b + 14 - 1) with (adj b + 13) in L' by lia.
      apply N.mul_lt_mono_pos_r in L'; [|apply pow_pos]. destruct (uu_cases x) as [U|[U [U1 U2]]]; rewrite U; npows; [clear - Hm L' Ek2 Ee|clear - Hm L' Ek2 Ee U1 U2]; lia. }
    rewrite mag_low. assert (El : low31 ((if f32_sign x then 2 ^ 31 else 0) + (kk x + uu x) * 2 ^ 20) = (kk x + uu x) * 2^20) by (unfold low31; destruct (f32_sign x); npows; clear - N118 A; lia). rewrite El.
    destruct (top_spec b Hb) as (_ & <- & Lt & _). apply mag_strict; [|exact Lt]. unfold top_bits. npows. clear - N118. lia.
  - rewrite H3. destruct (_ || _).
    + destruct (mag_of_tiny (adj b - 1)) as (-> & _); [lia|lia|]. replace (adj b - 1 - 1) with (adj b - 2) by lia. fold (unit b). rewrite (unit_top b Hb). pose proof (pow_pos (adj b - 2)) as P. fold (unit b) in P.
      apply N.mul_lt_mono_pos_r; [exact P|]. vm_compute. reflexivity.
    + change (f32_mag 0) with 0. unfold top. pose proof (pow_pos (adj b + 13)). npows. lia.
Qed.

Lemma reload_same t k : solid t -> fits_file t -> all_elements t is_float -> (3 <= k <= 10)%Z ->
  some_element t (fun x => 15 * 2^k * one <= 16 * magnitude x)%Z -> k = 10%Z \/ all_elements t (fun x => 16 * magnitude x < 29 * 2^k * one)%Z ->
  elementwise (materializeTensor t 8) (materializeTensor (HalfTensor (materializeTensor t 8)) 8) (fun y z => z = y).
Proof.
  intros Ht Hf H Hk So Al. assert (So' : exists x, In x (elements t) /\ (15 * 2^k * one <= 16 * magnitude x)%Z).
  { destruct So as (r & c & k' & Hr & Hc & Hk' & L). exists (value t r c k'). split; [apply in_elements; exists r, c, k'; auto|exact L]. }
  destruct (bias_from_sizes (elements t) k Hk So') as [U Ex]. destruct (best_spec (elements t)) as (R & _).
  apply reload_exact; try assumption; [lia|]. destruct (bias_after t Ht H) as [E|(N4 & E & w & Hw & L)]; [exact E|exfalso].
  destruct Al as [->|Al]; [unfold ok_bias in R; lia|]. apply all_in in Al. rewrite Forall_forall in Al. specialize (Ex Al).
  destruct (elementwise_elements _ _ _ (m_elements t Ht H)) as [_ I]. destruct (I w Hw) as (x & Hx & ->). apply all_in in H. rewrite Forall_forall in H.
  pose proof (store_below_top x (best (elements t)) R ltac:(lia) (H x Hx)) as Lt. rewrite Ex in Lt at 1. replace (14 - (14 - k))%Z with k in Lt by lia. specialize (Lt (Al x Hx)). lia.
Qed.
