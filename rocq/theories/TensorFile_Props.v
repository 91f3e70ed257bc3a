(** C26 - saved tensors load unchanged. *)
From Coq Require Import List Bool Arith NArith ZArith Lia.
From Verif Require Import Outcome PortableBytes_Model PortableBytes_Spec PortableBytes_Proofs Float32_Spec
  HalfFloat_Model HalfFloat_Proofs HalfFloat_Props QuarterFloat_Model QuarterFloat_Props
  TensorFile_Model TensorFile_Spec TensorFile_Proofs.
Import ListNotations.
Open Scope N_scope.

(** C26: every tensor of every shape (also with no channels, rows or columns) saves, and loading
    the bytes - whatever follows them in the stream - gives exactly its values; loading as a 16- or
    8-bit tensor gives the converted values; the following bytes are left to be read. *)
Theorem tensor_save_load :
  forall rows columns channels (t : list (list (list N))) rest bias,
    box rows columns channels t -> every (fun x => x < 2 ^ 32) t ->
    N.of_nat rows < 2 ^ 64 -> N.of_nat columns < 2 ^ 64 -> N.of_nat channels < 2 ^ 64 ->
    exists bytes, save_tensor t = Ok bytes /\
      load_tensor store_full (bytes ++ rest) = Ok (t, rest) /\
      load_tensor store_half (bytes ++ rest) = Ok (map3 floatToHalf t, rest) /\
      load_tensor (store_quarter bias) (bytes ++ rest) = Ok (map3 (fun x => floatToQuarter (Z.of_N x) bias) t, rest).
Proof.
  intros r k c t rest bias Hb Hv Hr Hk Hc.
  destruct (save_load store_full r k c t rest Hb Hv Hr Hk Hc) as (bs & E & L1).
  destruct (save_load store_half r k c t rest Hb Hv Hr Hk Hc) as (bs2 & E2 & L2).
  destruct (save_load (store_quarter bias) r k c t rest Hb Hv Hr Hk Hc) as (bs3 & E3 & L3).
  exists bs. rewrite E in E2, E3. injection E2 as <-. injection E3 as <-.
  repeat split; [exact E| |exact L2|exact L3].
  rewrite L1. unfold map3, store_full. do 2 f_equal.
  rewrite <- (map_id t) at 2. apply map_ext. intro a. rewrite <- (map_id a) at 2. apply map_ext. intro b. apply map_id.
Qed.
Print Assumptions tensor_save_load.

(** C26: the size of the file and its first 24 bytes, read as three big-endian numbers. *)
Theorem tensor_file_layout :
  forall rows columns channels (t : list (list (list N))) bytes,
    box rows columns channels t -> rows <> 0%nat -> channels <> 0%nat ->
    N.of_nat rows < 2 ^ 64 -> N.of_nat columns < 2 ^ 64 -> N.of_nat channels < 2 ^ 64 ->
    save_tensor t = Ok bytes ->
      length bytes = (24 + 4 * (rows * columns * channels))%nat /\
      big_endian_value (firstn 8 bytes) = N.of_nat channels /\
      big_endian_value (firstn 8 (skipn 8 bytes)) = N.of_nat rows /\
      big_endian_value (firstn 8 (skipn 16 bytes)) = N.of_nat columns.
Proof.
  intros r k c t bs Hb H1 H2 Hr Hk Hc. unfold save_tensor. rewrite (save_body_ok _ _ _ _ Hb). cbn [obind].
  destruct (box_counts _ _ _ _ Hb) as (E1 & E2 & E3). rewrite E1, (E2 H2), (E3 H2 H1).
  pose proof (body_bytes_length t r k c Hb) as HL. intro E.
  assert (E' : bs = put64 (N.of_nat c) ++ put64 (N.of_nat r) ++ put64 (N.of_nat k) ++ body_bytes t) by congruence. clear E. subst bs.
  rewrite !app_length, HL. unfold put64.
  pose proof (store_le_length 8 (portable_bytes64 (N.of_nat c))) as L1.
  pose proof (store_le_length 8 (portable_bytes64 (N.of_nat r))) as L2.
  pose proof (store_le_length 8 (portable_bytes64 (N.of_nat k))) as L3.
  pose proof (store_portable64_be _ Hc) as B1. pose proof (store_portable64_be _ Hr) as B2. pose proof (store_portable64_be _ Hk) as B3.
  set (a := store_le 8 _) in *. set (b := store_le 8 (portable_bytes64 (N.of_nat r))) in *. set (d := store_le 8 (portable_bytes64 (N.of_nat k))) in *.
  clearbody a b d. split; [lia|].
  destruct a as [|a1 [|a2 [|a3 [|a4 [|a5 [|a6 [|a7 [|a8 [|]]]]]]]]]; try discriminate L1.
  destruct b as [|b1 [|b2 [|b3 [|b4 [|b5 [|b6 [|b7 [|b8 [|]]]]]]]]]; try discriminate L2.
  destruct d as [|d1 [|d2 [|d3 [|d4 [|d5 [|d6 [|d7 [|d8 [|]]]]]]]]]; try discriminate L3.
  cbn [app firstn skipn]. auto.
Qed.
Print Assumptions tensor_file_layout.

Lemma skipn_plus {A} n m : forall (l : list A), skipn m (skipn n l) = skipn (n + m) l.
Proof. induction n as [|n IH]; intros l; [reflexivity|]. destruct l; [now rewrite !skipn_nil|]. apply IH. Qed.
Lemma concat_uniform {A} (n : nat) (ls : list (list A)) (d : A) : Forall (fun l => length l = n) ls ->
  length (concat ls) = (length ls * n)%nat /\ forall i j, (i < length ls)%nat -> (j < n)%nat -> nth (i * n + j) (concat ls) d = nth j (nth i ls []) d.
Proof.
  induction 1 as [|l ls Hl F [L IH]]; [split; [reflexivity|intros i j Hi; cbn in Hi; lia]|]. split; [cbn [concat length]; rewrite app_length, L, Hl; reflexivity|].
  intros [|i] j Hi Hj; cbn [concat nth].
  - cbn [Nat.mul Nat.add]. apply app_nth1. lia.
  - rewrite app_nth2 by (cbn [Nat.mul]; lia). rewrite <- (IH i j) by (cbn in Hi; lia). f_equal. cbn [Nat.mul]. lia.
Qed.
(** C26: each value is kept as four big-endian bytes, row after row, channel after channel. *)
Theorem tensor_file_elements :
  forall rows columns channels (t : list (list (list N))) bytes row column channel x,
    box rows columns channels t -> save_tensor t = Ok bytes -> (row < rows)%nat -> (column < columns)%nat -> (channel < channels)%nat ->
    nth column (nth row (nth channel t []) []) 0 = x -> x < 2 ^ 32 ->
    big_endian_value (firstn 4 (skipn (24 + 4 * ((channel * rows + row) * columns + column)) bytes)) = x.
Proof.
  intros r k c t bs row column channel x Hb E Hr Hk Hc Hx Lx. unfold save_tensor in E. rewrite (save_body_ok _ _ _ _ Hb) in E. cbn [obind] in E.
  assert (E' : exists h, length h = 24%nat /\ bs = h ++ body_bytes t).
  { match type of E with Ok ?b = _ => assert (E0 : bs = b) by congruence end. rewrite E0. rewrite !app_assoc. eexists. split; [|reflexivity]. unfold put64. rewrite !app_length, !store_le_length. reflexivity. }
  destruct E' as (h & Lh & ->). clear E. rewrite <- skipn_plus, skipn_app. rewrite <- Lh at 1. rewrite skipn_all, Lh, Nat.sub_diag. cbn [app skipn].
  assert (B : body_bytes t = concat (map put32 (concat (concat t)))).
  { unfold body_bytes. clear. induction t as [|ch t IH]; [reflexivity|]. cbn [map concat]. rewrite IH, concat_app, map_app, concat_app. f_equal. clear. induction ch as [|l ch IH]; [reflexivity|]. cbn [map concat]. rewrite IH, map_app, concat_app. reflexivity. }
  rewrite B. destruct Hb as (H1 & H2). 
  assert (F1 : Forall (fun ch => length ch = r) t) by (eapply Forall_impl; [|exact H2]; now intros a [? _]).
  assert (F2 : Forall (fun l => length l = k) (concat t)) by (apply Forall_concat; eapply Forall_impl; [|exact H2]; now intros a [_ ?]).
  destruct (concat_uniform r t [] F1) as [L1 N1]. destruct (concat_uniform k (concat t) 0 F2) as [L2 N2].
  assert (I1 : (channel * r + row < c * r)%nat) by nia. set (i := (channel * r + row)%nat) in *.
  assert (I2 : (i * k + column < length (concat (concat t)))%nat) by (rewrite L2, L1, H1; nia).
  assert (V : nth (i * k + column) (concat (concat t)) 0 = x) by (rewrite N2; [unfold i; rewrite N1 by lia; exact Hx|rewrite L1, H1; exact I1|exact Hk]).
  set (j := (i * k + column)%nat) in *. clearbody j. revert j I2 V. generalize (concat (concat t)). clear - Lx.
  assert (G : forall l j, (j < length l)%nat -> firstn 4 (skipn (4 * j) (concat (map put32 l))) = put32 (nth j l 0)).
  { induction l as [|y l IH]; intros j Hj; [cbn in Hj; lia|]. pose proof (store_le_length 4 (portable_bytes32 y)) as L4. fold (put32 y) in L4. cbn [map concat]. destruct j as [|j].
    - rewrite Nat.mul_0_r. cbn [skipn nth]. rewrite firstn_app, L4, Nat.sub_diag, firstn_O, app_nil_r. apply firstn_all2. lia.
    - replace (4 * S j)%nat with (4 + 4 * j)%nat by lia. rewrite <- skipn_plus, skipn_app. rewrite (skipn_all2 (n := 4)) by lia. rewrite L4, Nat.sub_diag. cbn [app skipn nth]. apply IH. cbn [length] in Hj. lia. }
  intros l j Hj V. rewrite G by exact Hj. rewrite V. unfold put32. now apply store_portable32_be.
Qed.
Print Assumptions tensor_file_elements.

(** C26: a 16-bit tensor without NaN that is saved and loaded again is unchanged, bit for bit. *)
Theorem half_tensor_save_load :
  forall rows columns channels (t : list (list (list N))) rest,
    box rows columns channels t ->
    every (fun h => h < 2 ^ 16 /\ ~ f32_is_nan (halfToFloat h)) t ->
    N.of_nat rows < 2 ^ 64 -> N.of_nat columns < 2 ^ 64 -> N.of_nat channels < 2 ^ 64 ->
    exists bytes, save_tensor (map3 halfToFloat t) = Ok bytes /\
      load_tensor store_half (bytes ++ rest) = Ok (t, rest).
Proof.
  intros r k c t rest [Hb1 Hb2] Hv Hr Hk Hc.
  assert (Hb' : box r k c (map3 halfToFloat t)).
  { split; [unfold map3; now rewrite map_length|]. unfold map3. rewrite Forall_map. eapply Forall_impl; [|exact Hb2].
    intros a [Ha Hf]. split; [now rewrite map_length|]. rewrite Forall_map. eapply Forall_impl; [|exact Hf]. intros b. now rewrite map_length. }
  assert (Hv' : every (fun x => x < 2 ^ 32) (map3 halfToFloat t)).
  { unfold every, map3 in *. rewrite Forall_map. eapply Forall_impl; [|exact Hv]. intros a Ha. rewrite Forall_map. eapply Forall_impl; [|exact Ha].
    intros b Hb. rewrite Forall_map. eapply Forall_impl; [|exact Hb]. intros h [Hh _]. cbn beta. rewrite (halfToFloat_eq h Hh). clear - Hh. lia. }
  destruct (save_load store_half r k c _ rest Hb' Hv' Hr Hk Hc) as (bs & E & L). exists bs. split; [exact E|]. rewrite L. do 2 f_equal.
  unfold map3. rewrite map_map. rewrite <- (map_id t) at 2. apply map_ext_in. intros a Ha. rewrite map_map. rewrite <- (map_id a) at 2.
  apply map_ext_in. intros b Hb. rewrite map_map. rewrite <- (map_id b) at 2. apply map_ext_in. intros h Hh.
  unfold every in Hv. rewrite Forall_forall in Hv. specialize (Hv a Ha). rewrite Forall_forall in Hv. specialize (Hv b Hb).
  rewrite Forall_forall in Hv. destruct (Hv h Hh) as [H1 H2]. unfold store_half. now apply half_codes_stable.
Qed.
Print Assumptions half_tensor_save_load.

Example tensor_file_ex :
  let t := [[[0x3F800000; 0xBDCCCCCD]]; [[0x7F800000; 0x00000001]]] in
  box 1 2 2 t /\ every (fun x => x < 2 ^ 32) t /\
  save_tensor t = Ok [0;0;0;0;0;0;0;2; 0;0;0;0;0;0;0;1; 0;0;0;0;0;0;0;2;
     0x3F;0x80;0;0; 0xBD;0xCC;0xCC;0xCD; 0x7F;0x80;0;0; 0;0;0;1].
Proof. cbv zeta. split; [|split]. - repeat constructor. - repeat constructor. - vm_compute. reflexivity. Qed.
