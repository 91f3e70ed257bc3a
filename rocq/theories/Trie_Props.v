(** C20, C21 - the trie. *)
From Coq Require Import Ascii String List Bool Arith Permutation.
From Verif Require Import Chars Trie_Model Trie_Spec Trie_Proofs.
Import ListNotations.

(** C20: for every insertion history and every behaviour of the hash maps. *)
Theorem trie_search :
  forall add history word, hash_order add ->
    (search (build add history) word = true <-> In word (map fst history)).
Proof. exact search_spec. Qed.
Print Assumptions trie_search.

Theorem trie_match :
  forall add history word, hash_order add ->
    (matches (build add history) word = true <-> In word (map fst history)).
Proof. exact search_spec. Qed.
Print Assumptions trie_match.

(** [lookup] gives the value inserted last for this word; every inserted word has one. *)
Theorem trie_lookup :
  forall add history word, hash_order add ->
    (forall value, latest history word value -> lookup (build add history) word = value) /\
    (In word (map fst history) -> exists value, latest history word value) /\
    (~ In word (map fst history) -> lookup (build add history) word = []).
Proof.
  intros add h w H. destruct (lookup_spec add h w H) as [H1 H2].
  split; [exact H1|]. split; [apply latest_exists|exact H2].
Qed.
Print Assumptions trie_lookup.

Theorem trie_starts_with :
  forall add history prefix, hash_order add ->
    (startsWith (build add history) prefix = true <->
     prefix = [] \/ exists word, In word (map fst history) /\ extends word prefix).
Proof. exact startsWith_spec. Qed.
Print Assumptions trie_starts_with.

(** C21 *)
Theorem trie_complete :
  forall add history prefix, hash_order add ->
    let result := complete (build add history) prefix in
    ((exists word, In word (map fst history) /\ extends word prefix) ->
       In result (map fst history) /\ extends result prefix /\
       forall word, In word (map fst history) -> extends word prefix -> length word <= length result) /\
    (~ (exists word, In word (map fst history) /\ extends word prefix) -> result = []).
Proof. exact complete_spec. Qed.
Print Assumptions trie_complete.

Definition push_front (i : nat) (l : list (ascii * trie)) (c : ascii * trie) := c :: l.
Example trie_ex :
  let t := build push_front [(lit "car", lit "1"); (lit "cart", lit "2"); (lit "cat", lit "3"); (lit "car", lit "4")] in
  hash_order push_front /\
  search t (lit "ca") = false /\ startsWith t (lit "ca") = true /\ lookup t (lit "car") = lit "4" /\
  complete t (lit "ca") = lit "cart" /\ complete t (lit "x") = [].
Proof. split; [intros i l c; apply Permutation_refl|]. repeat split; reflexivity. Qed.
