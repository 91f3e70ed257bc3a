From Coq Require Import List Bool Arith NArith ZArith Lia.
From Verif Require Import Outcome PortableBytes_Model PortableBytes_Spec PortableBytes_Proofs TensorFile_Model TensorFile_Spec.
Import ListNotations.
Open Scope N_scope.

Lemma omapM_ok {A B} (f : A -> outcome B) (g : A -> B) l : (forall x, In x l -> f x = Ok (g x)) -> omapM f l = Ok (map g l).
Proof.
  induction l as [|x l IH]; intro H; [reflexivity|]. cbn [omapM map]. rewrite (H x) by now left. cbn [obind].
  rewrite IH by (intros y Hy; apply H; now right). reflexivity.
Qed.

Lemma nth_seq_map {A} (l : list A) (d : A) : map (fun i => nth i l d) (seq 0 (length l)) = l.
Proof.
  induction l as [|x l IH]; [reflexivity|]. cbn [length seq map nth]. f_equal. rewrite <- seq_shift, map_map. exact IH.
Qed.

Definition body_bytes (t : cube N) : list N := concat (map (fun c => concat (map (fun r => concat (map put32 r)) c)) t).

Lemma box_counts {A} r k c (t : cube A) : box r k c t -> channelCount t = c /\
  (c <> 0%nat -> rowCount t = r) /\ (c <> 0%nat -> r <> 0%nat -> columnCount t = k).
Proof.
  intros [H1 H2]. split; [exact H1|]. destruct t as [|x t]; [cbn in H1; subst; split; congruence|].
  inversion H2 as [|? ? [Ha Hb] Hc]; subst. split; [auto|]. intros _ Hr. cbn. destruct x as [|y x]; [cbn in *; congruence|].
  inversion Hb; subst. reflexivity.
Qed.

Lemma at_nth {A} (l : list A) i d : (i < length l)%nat -> at_ l i = Ok (nth i l d).
Proof. intro H. unfold at_. rewrite (nth_error_nth' l d H). reflexivity. Qed.

Lemma save_body_ok r k c t : box r k c t -> save_body t = Ok (body_bytes t).
Proof.
  intro Hb. destruct (box_counts _ _ _ _ Hb) as (E1 & E2 & E3). destruct Hb as [H1 H2]. unfold save_body, body_bytes.
  assert (G : forall channel, In channel (seq 0 (channelCount t)) ->
     omap (@concat N) (omapM (fun row =>
      omap (@concat N) (omapM (fun column => omap put32 (getValue t row column channel))
        (seq 0 (columnCount t)))) (seq 0 (rowCount t))) =
     Ok (concat (map (fun r => concat (map put32 r)) (nth channel t [])))).
  { intros channel Hch. apply in_seq in Hch. cbn in Hch. unfold channelCount in Hch.
    assert (Hc0 : c <> 0%nat) by (rewrite <- H1; lia). specialize (E2 Hc0).
    assert (Hin : In (nth channel t []) t) by (apply nth_In; lia).
    rewrite Forall_forall in H2. destruct (H2 _ Hin) as [Hr Hk].
    assert (G2 : forall row, In row (seq 0 (rowCount t)) ->
      omap (@concat N) (omapM (fun column => omap put32 (getValue t row column channel)) (seq 0 (columnCount t)))
      = Ok (concat (map put32 (nth row (nth channel t []) [])))).
    { intros row Hrow. apply in_seq in Hrow. cbn in Hrow. rewrite E2 in Hrow.
      assert (Hr0 : r <> 0%nat) by lia. specialize (E3 Hc0 Hr0).
      rewrite Forall_forall in Hk. assert (Hlr : length (nth row (nth channel t []) []) = k).
      { apply Hk. apply nth_In. lia. }
      rewrite (omapM_ok _ (fun column => put32 (nth column (nth row (nth channel t []) []) 0))).
      - cbn. rewrite E3. rewrite <- Hlr. rewrite <- (map_map (fun i => nth i (nth row (nth channel t []) []) 0) put32).
        now rewrite nth_seq_map.
      - intros column Hcol. apply in_seq in Hcol. cbn in Hcol. unfold getValue.
        rewrite (at_nth t channel []) by lia. cbn [obind]. rewrite (at_nth _ row []) by lia. cbn [obind].
        rewrite (at_nth _ column 0) by lia. reflexivity. }
    rewrite (omapM_ok _ _ _ G2). cbn. rewrite E2, <- Hr.
    rewrite <- (map_map (fun i => nth i (nth channel t []) []) (fun r => concat (map put32 r))). now rewrite nth_seq_map. }
  rewrite (omapM_ok _ _ _ G). cbn. unfold channelCount.
  rewrite <- (map_map (fun i => nth i t []) (fun c => concat (map (fun r => concat (map put32 r)) c))). now rewrite nth_seq_map.
Qed.

Lemma read32_put x r : x < 2 ^ 32 -> read32 (put32 x ++ r) = Ok (portable_bytes32 x, r).
Proof.
  intro H. unfold put32.
  assert (E : load_le (store_le 4 (portable_bytes32 x)) = portable_bytes32 x).
  { apply load_store_le. apply portable32_bound. }
  destruct (store_le 4 (portable_bytes32 x)) as [|a [|b [|c [|d [|]]]]] eqn:S; try discriminate S.
  cbn [app read32]. now rewrite E.
Qed.

Lemma read64_put x r : x < 2 ^ 64 -> read64 (put64 x ++ r) = Ok (portable_bytes64 x, r).
Proof.
  intro H. unfold put64.
  assert (E : load_le (store_le 8 (portable_bytes64 x)) = portable_bytes64 x).
  { apply load_store_le. apply portable64_bound. }
  destruct (store_le 8 (portable_bytes64 x)) as [|a [|b [|c [|d [|e [|f [|g [|h [|]]]]]]]]] eqn:S; try discriminate S.
  cbn [app read64]. now rewrite E.
Qed.

Lemma times_ok {A B} (rd : reader B) (put : A -> list N) (f : A -> B) (l : list A) r :
  (forall x r, In x l -> rd (put x ++ r) = Ok (f x, r)) ->
  times (length l) rd (concat (map put l) ++ r) = Ok (map f l, r).
Proof.
  induction l as [|x l IH]; intro H; [reflexivity|]. cbn [length times map concat]. rewrite <- app_assoc.
  rewrite H by now left. cbn [obind fst snd]. rewrite IH by (intros y r' Hy; apply H; now right). reflexivity.
Qed.

Lemma load_body_ok {A} (store : N -> A) r k c t rest : box r k c t -> every (fun x => x < 2 ^ 32) t ->
  load_body store (N.of_nat r) (N.of_nat k) (N.of_nat c) (body_bytes t ++ rest) = Ok (map3 store t, rest).
Proof.
  intros [H1 H2] H3. unfold load_body, body_bytes, map3. rewrite !Nat2N.id. rewrite <- H1.
  apply (times_ok (times r (times k _)) (fun c => concat (map (fun r => concat (map put32 r)) c)) (map (map store))).
  intros ch r1 Hch. rewrite Forall_forall in H2. destruct (H2 ch Hch) as [<- Hrow]. unfold every in H3. rewrite Forall_forall in H3. specialize (H3 ch Hch).
  apply (times_ok (times k _) (fun r => concat (map put32 r)) (map store)).
  intros rw r2 Hrw. rewrite Forall_forall in Hrow. rewrite <- (Hrow rw Hrw). rewrite Forall_forall in H3. specialize (H3 rw Hrw).
  apply (times_ok _ put32 store). intros x r3 Hx. rewrite Forall_forall in H3. specialize (H3 x Hx). cbn beta in H3.
  rewrite read32_put by exact H3. cbn [obind fst snd]. rewrite portable32_involutive by exact H3. reflexivity.
Qed.

Lemma body_bytes_length t r k c : box r k c t -> length (body_bytes t) = (4 * (r * k * c))%nat.
Proof.
  intros [<- H]. unfold body_bytes. induction H as [|ch t [Hr Hk] _ IH]; cbn [map concat length]; [lia|].
  rewrite app_length, IH. assert (E : length (concat (map (fun r => concat (map put32 r)) ch)) = (4 * (r * k))%nat).
  { rewrite <- Hr. clear - Hk. induction Hk as [|x ch Hx _ IH]; cbn [map concat length]; [lia|]. rewrite app_length, IH.
    assert (E : length (concat (map put32 x)) = (4 * k)%nat).
    { rewrite <- Hx. clear. induction x; cbn [map concat length]; [lia|]. rewrite app_length, IHx. unfold put32. rewrite store_le_length. lia. }
    rewrite E. lia. }
  rewrite E. lia.
Qed.

Lemma save_load {A} (store : N -> A) r k c t rest : box r k c t -> every (fun x => x < 2 ^ 32) t ->
  N.of_nat r < 2 ^ 64 -> N.of_nat k < 2 ^ 64 -> N.of_nat c < 2 ^ 64 ->
  exists bytes, save_tensor t = Ok bytes /\ load_tensor store (bytes ++ rest) = Ok (map3 store t, rest).
Proof.
  intros Hb Hv Hr Hk Hc. unfold save_tensor. rewrite (save_body_ok _ _ _ _ Hb). cbn [obind]. eexists. split; [reflexivity|].
  destruct (box_counts _ _ _ _ Hb) as (E1 & E2 & E3).
  assert (Hb' : box (rowCount t) (columnCount t) (channelCount t) t).
  { rewrite E1. destruct Hb as [H1 H2]. split; [exact H1|]. destruct c as [|c]; [destruct t; [constructor|discriminate]|].
    rewrite E2 by lia. eapply Forall_impl; [|exact H2]. intros ch [Ha Hch]. split; [exact Ha|].
    destruct r as [|r]; [destruct ch; [constructor|discriminate]|]. now rewrite E3 by lia. }
  assert (B1 : N.of_nat (rowCount t) < 2 ^ 64).
  { destruct t as [|x t]; [cbn; lia|]. rewrite E2; [exact Hr|]. destruct Hb as [<- _]. discriminate. }
  assert (B2 : N.of_nat (columnCount t) < 2 ^ 64).
  { destruct t as [|[|y x] t]; [cbn; lia|cbn; lia|]. rewrite E3; [exact Hk| |]; destruct Hb as [<- Hf]; [discriminate|].
    inversion Hf as [|? ? [Hl _] _]; subst. discriminate. }
  assert (B3 : N.of_nat (channelCount t) < 2 ^ 64) by now rewrite E1.
  unfold load_tensor. rewrite <- !app_assoc. rewrite read64_put by exact B3. cbn [obind fst snd]. rewrite read64_put by exact B1.
  cbn [obind fst snd]. rewrite read64_put by exact B2. cbn [obind fst snd]. rewrite !portable64_involutive by assumption.
  apply load_body_ok; assumption.
Qed.
