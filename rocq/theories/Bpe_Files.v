(** Proofs about saving and loading byte pair models. *)
From Coq Require Import Ascii String List Bool Arith NArith ZArith Lia ZifyBool ZifyNat ZifyN.
From Verif Require Import Outcome Chars PortableBytes_Model PortableBytes_Proofs Bpe_Model Bpe_Spec.
Import ListNotations.
Open Scope N_scope.
Ltac Zify.zify_post_hook ::= Z.div_mod_to_equations.

Definition s16 (s : str16) : Prop := N.of_nat (length s) < 65536 /\ Forall (fun c => c < 65536) s.

Lemma store2 x : store_le 2 x = [x mod 256; x / 256 mod 256].
Proof. reflexivity. Qed.

Lemma back2 x : x < 65536 -> x mod 256 + 256 * (x / 256 mod 256) = x.
Proof. intro H. lia. Qed.

Lemma read_chars_ok s r : Forall (fun c => c < 65536) s ->
  read_chars (length s) (flat_map (store_le 2) s ++ r) = Some (s, r).
Proof.
  induction 1 as [|c s Hc _ IH]; [reflexivity|]. cbn [flat_map length read_chars app]. rewrite store2. cbn [app].
  rewrite IH. rewrite back2 by exact Hc. reflexivity.
Qed.

Lemma str16_bytes_eq s : s16 s -> str16_bytes s = store_le 2 (N.of_nat (length s)) ++ flat_map (store_le 2) s.
Proof.
  intros [H _]. unfold str16_bytes. rewrite N.mod_small by exact H. rewrite Nat2N.id, firstn_all. reflexivity.
Qed.

Lemma flat2_length s : length (flat_map (store_le 2) s) = (2 * length s)%nat.
Proof. induction s; cbn [flat_map length]; [reflexivity|]. rewrite app_length, IHs, store_le_length. lia. Qed.

Lemma str16_bytes_length s : s16 s -> length (str16_bytes s) = (2 + 2 * length s)%nat.
Proof. intro H. rewrite str16_bytes_eq by exact H. rewrite app_length, flat2_length, store_le_length. reflexivity. Qed.

Lemma read_str16_ok s r : s16 s -> read_str16 (str16_bytes s ++ r) = Some (s, r).
Proof.
  intros H. rewrite str16_bytes_eq by exact H. rewrite store2. cbn [app]. unfold read_str16.
  rewrite back2 by apply H. rewrite Nat2N.id. apply read_chars_ok. apply H.
Qed.

Lemma read_chars_short k : forall bytes, (length bytes < 2 * k)%nat -> read_chars k bytes = None.
Proof.
  induction k as [|k IH]; intros bytes H; [lia|]. cbn [read_chars]. destruct bytes as [|a [|b r]]; try reflexivity.
  rewrite IH; [reflexivity|]. cbn [length] in H. lia.
Qed.

Lemma read_str16_short s n : s16 s -> (n < length (str16_bytes s))%nat -> read_str16 (firstn n (str16_bytes s)) = None.
Proof.
  intros H Hn. rewrite str16_bytes_length in Hn by exact H. rewrite str16_bytes_eq by exact H. rewrite store2.
  destruct n as [|[|n]]; cbn [app firstn read_str16]; try reflexivity.
  rewrite back2 by apply H. rewrite Nat2N.id. apply read_chars_short.
  rewrite firstn_length. lia.
Qed.

Definition entry_bytes (p : code_pair) : list N := str16_bytes (fst p) ++ str16_bytes (snd p).
Definition e16 (p : code_pair) : Prop := s16 (fst p) /\ s16 (snd p).

Lemma load_entries_ok t : forall fuel r, Forall e16 t -> (length t < fuel)%nat ->
  load_entries fuel (flat_map entry_bytes t ++ r) = t ++ load_entries (fuel - length t) r.
Proof.
  induction t as [|p t IH]; intros fuel r H Hf; cbn [flat_map length app].
  - now rewrite Nat.sub_0_r.
  - inversion H as [|? ? [H1 H2] Ht]; subst. destruct fuel as [|fuel]; [cbn in Hf; lia|]. cbn [load_entries].
    unfold entry_bytes at 1. rewrite <- !app_assoc, read_str16_ok by exact H1. rewrite read_str16_ok by exact H2.
    rewrite IH; [|exact Ht|cbn in Hf; lia]. rewrite Nat.sub_succ. now destruct p.
Qed.

Lemma load_entries_short p n fuel : e16 p -> (n < length (entry_bytes p))%nat ->
  load_entries fuel (firstn n (entry_bytes p)) = [].
Proof.
  intros [H1 H2] Hn. destruct fuel as [|fuel]; [reflexivity|]. cbn [load_entries]. unfold entry_bytes in *.
  rewrite firstn_app. rewrite app_length in Hn.
  destruct (Nat.lt_ge_cases n (length (str16_bytes (fst p)))) as [L|L].
  - replace (n - length (str16_bytes (fst p)))%nat with 0%nat by lia. cbn [firstn]. rewrite app_nil_r.
    now rewrite read_str16_short.
  - rewrite firstn_all2 by exact L. rewrite read_str16_ok by exact H1. rewrite read_str16_short; [reflexivity|exact H2|lia].
Qed.

Lemma entry_bytes_length p : (4 <= length (entry_bytes p))%nat.
Proof. unfold entry_bytes, str16_bytes. rewrite !app_length, !store_le_length. lia. Qed.

Lemma flat_entries_length t : (4 * length t <= length (flat_map entry_bytes t))%nat.
Proof.
  induction t as [|p t IH]; cbn [flat_map length]; [lia|]. rewrite app_length. pose proof (entry_bytes_length p). lia.
Qed.

Lemma save_eq b : save b = store_le 2 (delimiter_code b) ++ flat_map entry_bytes (ordered_bpe_codes b).
Proof. reflexivity. Qed.

Lemma load_save_gen b0 b : Forall e16 (ordered_bpe_codes b) -> delimiter_code b < 65536 ->
  load b0 (save b) = {| ordered_bpe_codes := ordered_bpe_codes b0 ++ ordered_bpe_codes b;
                        delimiter_code := delimiter_code b;
                        next_code := (delimiter_code b + 1) mod 65536 |}.
Proof.
  intros H Hd. rewrite save_eq, store2. unfold load. cbn [app skipn]. rewrite back2 by exact Hd. f_equal. f_equal.
  rewrite <- (app_nil_r (flat_map _ _)) at 2.
  pose proof (flat_entries_length (ordered_bpe_codes b)) as L.
  rewrite load_entries_ok; [|exact H|cbn [length]; lia].
  assert (forall f, load_entries f [] = []) as -> by (intros [|]; reflexivity). apply app_nil_r.
Qed.

Lemma load_truncated_gen b0 b t1 e t2 n : Forall e16 (ordered_bpe_codes b) -> delimiter_code b < 65536 ->
  ordered_bpe_codes b = t1 ++ e :: t2 ->
  (2 + length (flat_map entry_bytes t1) <= n < 2 + length (flat_map entry_bytes (t1 ++ [e])))%nat ->
  load b0 (firstn n (save b)) = {| ordered_bpe_codes := ordered_bpe_codes b0 ++ t1;
                        delimiter_code := delimiter_code b;
                        next_code := (delimiter_code b + 1) mod 65536 |}.
Proof.
  intros H Hd E Hn. rewrite save_eq, store2. destruct n as [|[|n]]; [lia|lia|].
  rewrite flat_map_app, app_length in Hn. cbn [flat_map] in Hn. rewrite app_nil_r in Hn.
  cbn [app firstn]. unfold load. cbn [app skipn]. rewrite back2 by exact Hd. f_equal. f_equal.
  rewrite E in *. apply Forall_app in H as [H1 H2]. inversion H2 as [|? ? He _]; subst.
  pose proof (flat_entries_length t1) as L.
  rewrite flat_map_app. cbn [flat_map]. rewrite firstn_app, firstn_all2 by lia. rewrite firstn_app.
  replace (n - length (flat_map entry_bytes t1) - length (entry_bytes e))%nat with 0%nat by lia.
  rewrite firstn_O, app_nil_r. rewrite load_entries_ok; [|exact H1|cbn [length]; rewrite app_length; lia].
  rewrite load_entries_short; [apply app_nil_r|exact He|lia].
Qed.
