(** C16-C19 - byte pair encoding. *)
From Coq Require Import Ascii String List Bool Arith NArith ZArith Lia Permutation Sorted.
From Verif Require Import Outcome Chars Bpe_Model Bpe_Spec Bpe_Proofs Bpe_Loop Bpe_Files Bpe_Reach Bpe_Example.
Import ListNotations.
Open Scope N_scope.

(** C16: for every model a program can reach with a delimiter of at least 127 (the default is
    256), up to 32641 training calls, and every text. *)
Theorem bpe_decode_encode :
  forall b n token, reachable b n -> N.of_nat n <= 32641 -> decode b (encode b token) = Ok token.
Proof. exact reachable_round_trip. Qed.
Print Assumptions bpe_decode_encode.

(** C16, for any table at all (hand made, loaded from any file) whose codes are fresh. *)
Theorem bpe_decode_encode_table :
  forall b token, 127 <= delimiter_code b -> fresh_codes (delimiter_code b) (ordered_bpe_codes b) ->
    decode b (encode b token) = Ok token.
Proof. exact decode_encode_fresh. Qed.
Print Assumptions bpe_decode_encode_table.

(** Finding: with a delimiter below 127 codes collide with characters of the text. *)
Theorem bpe_decode_encode_small_delimiter_refuted :
  exists d tokens b token, d < 127 /\
    train same_order never isort (new_bpe d) tokens 2 10 = Ok b /\ decode b (encode b token) <> Ok token.
Proof.
  exists 96, [lit "xy"; lit "xy"], (xy_model 96), (lit "a").
  split; [reflexivity|]. split; [exact xy_96|]. vm_compute. discriminate.
Qed.
Print Assumptions bpe_decode_encode_small_delimiter_refuted.

(** C17 *)
Theorem bpe_encode_not_longer :
  forall b n token, reachable b n -> N.of_nat n <= 32641 -> (length (encode b token) <= length token + 2)%nat.
Proof. exact reachable_length. Qed.
Print Assumptions bpe_encode_not_longer.

Theorem bpe_encode_not_longer_table :
  forall b token, Forall (fun p => (1 <= length (snd p) <= length (fst p))%nat) (ordered_bpe_codes b) ->
    (length (encode b token) <= length token + 2)%nat.
Proof. exact encode_length. Qed.
Print Assumptions bpe_encode_not_longer_table.

(** C18: loading a saved model into a new one gives the same table and delimiter, so it encodes
    and decodes every text the same way. *)
Theorem bpe_save_load :
  forall b n d, reachable b n -> N.of_nat n <= 32641 ->
    let b' := load (new_bpe d) (save b) in
    ordered_bpe_codes b' = ordered_bpe_codes b /\ delimiter_code b' = delimiter_code b /\
    forall token code, encode b' token = encode b token /\ decode b' code = decode b code.
Proof.
  intros b n d Hr Hn. cbv zeta. destruct (reachable_load b n (new_bpe d) Hr Hn eq_refl) as [E1 E2].
  split; [exact E1|]. split; [exact E2|]. intros token code0. unfold encode, decode. now rewrite E1, E2.
Qed.
Print Assumptions bpe_save_load.

(** C18, crash: for a table of 16-bit strings with entries [t1 ++ e :: t2], a file cut anywhere
    inside entry [e] loads exactly [t1]. *)
Theorem bpe_load_cut_file :
  forall d b t1 e t2 n,
    Forall (fun p => N.of_nat (length (fst p)) < 65536 /\ N.of_nat (length (snd p)) < 65536 /\
                     Forall (fun c => c < 65536) (fst p) /\ Forall (fun c => c < 65536) (snd p))
           (ordered_bpe_codes b) ->
    delimiter_code b < 65536 -> ordered_bpe_codes b = t1 ++ e :: t2 ->
    let file_of t := save {| ordered_bpe_codes := t; delimiter_code := delimiter_code b; next_code := next_code b |} in
    (length (file_of t1) <= n < length (file_of (t1 ++ [e])))%nat ->
    ordered_bpe_codes (load (new_bpe d) (firstn n (save b))) = t1 /\
    delimiter_code (load (new_bpe d) (firstn n (save b))) = delimiter_code b.
Proof.
  intros d b t1 e t2 n H Hd E file_of Hn.
  rewrite (load_truncated_gen (new_bpe d) b t1 e t2 n); [split; reflexivity| |exact Hd|exact E|].
  - eapply Forall_impl; [|exact H]. intros p (H1 & H2 & H3 & H4). split; split; assumption.
  - unfold file_of in Hn. rewrite !save_eq in Hn. cbn [ordered_bpe_codes] in Hn. rewrite !app_length in Hn.
    exact Hn.
Qed.
Print Assumptions bpe_load_cut_file.

(** Finding: the number that sizes one-hot vectors ([getLargestCode]) is not restored. *)
Theorem bpe_load_largest_code_refuted :
  exists b n, reachable b n /\ next_code (load (new_bpe 256) (save b)) <> next_code b.
Proof.
  exists (xy_model 256), 1%nat. split; [exact xy_reachable|]. rewrite xy_load. discriminate.
Qed.
Print Assumptions bpe_load_largest_code_refuted.

(** Finding: loading into a model that has a table keeps the old entries too. *)
Theorem bpe_load_replaces_refuted :
  exists b0 b, ordered_bpe_codes (load b0 (save b)) <> ordered_bpe_codes b.
Proof.
  exists (xy_model 256), (new_bpe 256). vm_compute. discriminate.
Qed.
Print Assumptions bpe_load_replaces_refuted.

(** C19: training a new model, for every data set, hash order, sort, early-stopping behaviour,
    minimum frequency and merge count. The table is the list of learned pairs with consecutive
    codes from delimiter + 1; learned pairs are distinct, in order of falling frequency in the
    text, frequent enough, and at least as frequent as every pair not learned; the codes stay
    at or below 0x7FFE; without early stopping and without a merge limit training ends only
    at the code limit or when no frequent pair is left. *)
(** Partial, C19: missing is that codes stay new after loading and the padding code free, see the refuted theorems. *)
Theorem bpe_training_result_partial :
  forall order stop sorter d tokens min_frequency num_merges b,
    any_order order -> sorts_by_code sorter -> 127 <= d < 0x7FFE ->
    train order stop sorter (new_bpe d) tokens min_frequency num_merges = Ok b ->
    exists pairs : list (N * N),
      ordered_bpe_codes b = coded (d + 1) pairs /\ delimiter_code b = d /\
      next_code b = d + 1 + N.of_nat (length pairs) /\
      NoDup pairs /\ decreasing (frequency d tokens) pairs /\
      (forall p, In p pairs -> N.max 1 min_frequency <= frequency d tokens p) /\
      (forall p q, ~ In p pairs -> In q pairs -> frequency d tokens p <= frequency d tokens q) /\
      next_code b <= 0x7FFF /\
      (0 <= num_merges < 2 ^ 64 -> Z.of_nat (length pairs) <= Z.max 1 num_merges)%Z /\
      ((forall i, stop i = false) -> (num_merges = -1 \/ 0x7FFE <= num_merges < 2 ^ 64)%Z ->
         0x7FFE <= next_code b \/ forall p, ~ In p pairs -> frequency d tokens p < N.max 1 min_frequency).
Proof. exact train_new. Qed.
Print Assumptions bpe_training_result_partial.

(** C19: training any reachable model further: every new code is different from all codes of
    the old table and from all symbols in the encoded training text. *)
Theorem bpe_training_codes_new :
  forall order stop sorter b n tokens min_frequency num_merges b',
    any_order order -> sorts_by_code sorter -> reachable b n -> N.of_nat n <= 32640 ->
    train order stop sorter b tokens min_frequency num_merges = Ok b' ->
    exists first_code pairs, next_code b' = first_code + N.of_nat (length pairs) /\
      (forall e, In e (ordered_bpe_codes b') -> In e (ordered_bpe_codes b) \/
         exists i p, nth_error pairs i = Some p /\ e = ([fst p; snd p], [first_code + N.of_nat i])) /\
      (forall t x, In t tokens -> In x (encode b t) -> x < first_code \/ 0xFF80 <= x) /\
      (forall e c, In e (ordered_bpe_codes b) -> snd e = [c] -> c < first_code) /\
      first_code + N.of_nat (length pairs) <= 0xFF80.
Proof. exact train_codes_new. Qed.
Print Assumptions bpe_training_codes_new.

(** C19: training ends: the loop, given more steps than there are vocabulary entries, does not
    use them. *)
Theorem bpe_training_terminates :
  forall order stop b n tokens min_frequency num_merges next table v extra,
    any_order order -> reachable b n -> N.of_nat n <= 32641 -> buildVocab b tokens = Ok v -> next < 65535 ->
    train_loop order stop (train_fuel v + extra) min_frequency num_merges 0 next table v =
    train_loop order stop (train_fuel v) min_frequency num_merges 0 next table v.
Proof. exact train_fuel_enough. Qed.
Print Assumptions bpe_training_terminates.

(** C19: training is defined on every list of non-empty tokens. *)
Theorem bpe_training_defined :
  forall order stop sorter b tokens min_frequency num_merges,
    Forall (fun t => t <> []) tokens ->
    exists b', train order stop sorter b tokens min_frequency num_merges = Ok b'.
Proof.
  intros order stop sorter b tokens m k H. unfold train.
  destruct (buildVocab_good b tokens H) as (v & -> & _). cbn [obind].
  destruct (train_loop _ _ _ _ _ _ _ _ _). eauto.
Qed.
Print Assumptions bpe_training_defined.

(** Finding: the code limit is looked at only after a merge, so training twice near the limit
    gives a pair the code reserved for padding (0x7FFF). *)
Theorem bpe_training_padding_code_refuted :
  exists b n, reachable b n /\ exists e, In e (ordered_bpe_codes b) /\ snd e = [0x7FFF].
Proof.
  exists high2, 2%nat. split; [exact high2_reachable|].
  exists ([0x7FFE; 121], [0x7FFF]). split; [now left|reflexivity].
Qed.
Print Assumptions bpe_training_padding_code_refuted.

(** Finding: [train_on_file] on a loaded model uses again codes that occur in its training data. *)
Theorem bpe_train_on_file_codes_new_refuted :
  exists b n b' e c, reachable b n /\
    train_on_file same_order never isort b [lit "xyx"; lit "xyx"] = Ok b' /\
    In e (ordered_bpe_codes b') /\ snd e = [c] /\ In c (encode b (lit "xyx")).
Proof.
  exists xy_loaded, 1%nat. rewrite <- xy_load.
  eexists. exists ([257; 121], [257]), 257.
  split.
  { apply reach_load; [exact xy_reachable|].
    vm_compute. repeat constructor; intros c [<-|[]]; reflexivity. }
  rewrite xy_load. split; [vm_compute; reflexivity|]. vm_compute. auto.
Qed.
Print Assumptions bpe_train_on_file_codes_new_refuted.

Example bpe_ex :
  reachable aa_model 1 /\ any_order same_order /\ sorts_by_code isort /\
  encode aa_model (lit "aaab") = [256; 257; 97; 98; 256] /\
  decode aa_model [256; 257; 97; 98; 256] = Ok (lit "aaab").
Proof.
  split; [exact aa_reachable|]. split; [exact same_order_any|]. split; [exact isort_sorts|].
  split; vm_compute; reflexivity.
Qed.
Example bpe_cut_ex :
  length (save aa_model) = 22%nat /\
  ordered_bpe_codes (load (new_bpe 256) (firstn 21 (save aa_model))) = [([256; 97], [258])].
Proof. split; vm_compute; reflexivity. Qed.
