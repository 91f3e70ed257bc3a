(** Vocabulary for C16-C19. *)
From Coq Require Import Ascii String List Bool Arith NArith Permutation Sorted.
From Verif Require Import Outcome Chars Bpe_Model.
Import ListNotations.
Open Scope N_scope.

(** [std::u16string] comparison [a <= b]. *)
Inductive u16_le : list N -> list N -> Prop :=
| u16_le_nil s : u16_le [] s
| u16_le_here x y a b : x < y -> u16_le (x :: a) (y :: b)
| u16_le_later x a b : u16_le a b -> u16_le (x :: a) (x :: b).

(** [std::sort] of a code table by code, descending; the order of entries with equal codes is
    unspecified. *)
Definition sorts_by_code (sorter : list (list N * list N) -> list (list N * list N)) : Prop :=
  forall t, Permutation (sorter t) t /\
            StronglySorted (fun a b => u16_le (snd b) (snd a)) (sorter t).

(** A hash map may be iterated in any order. *)
Definition any_order {A} (order : nat -> list A -> list A) : Prop :=
  forall i v, Permutation (order i v) v.

(** A code table (listed from the latest code to the first) whose codes are single characters,
    all different, above the delimiter and below 0xFF80 - so different from every text character
    when the delimiter is at least 127 - and which replace non-empty strings. *)
Definition fresh_codes (delimiter : N) (table : list (list N * list N)) : Prop :=
  Forall (fun e => fst e <> [] /\ exists c, snd e = [c] /\ delimiter < c < 0xFF80) table /\
  StronglySorted (fun a b => snd a <> snd b /\ u16_le (snd b) (snd a)) table.

(** Neighbouring symbols of a token between its delimiters, as counted by training. *)
Definition symbol (c : ascii) : N := if N_of_ascii c <? 128 then N_of_ascii c else 0xFF00 + N_of_ascii c.
Definition delimited (d : N) (token : str) : list N := [d] ++ map symbol token ++ [d].
Definition neighbours (d : N) (token : str) : list (N * N) :=
  combine (delimited d token) (tl (delimited d token)).
Definition pair_dec (p q : N * N) : {p = q} + {p <> q}.
Proof. decide equality; apply N.eq_dec. Defined.
Definition frequency (d : N) (tokens : list str) (p : N * N) : N :=
  N.of_nat (count_occ pair_dec (flat_map (neighbours d) tokens) p).

(** The code table for [pairs] learned in this order from code [c] on, latest first. *)
Fixpoint coded (c : N) (pairs : list (N * N)) : list (list N * list N) :=
  match pairs with
  | [] => []
  | p :: t => coded (c + 1) t ++ [([fst p; snd p], [c])]
  end.

(** Frequencies never increase along the list. *)
Fixpoint decreasing (f : N * N -> N) (l : list (N * N)) : Prop :=
  match l with
  | [] => True
  | p :: t => (forall q, In q t -> f q <= f p) /\ decreasing f t
  end.

(** Models a program can have: made with some delimiter, trained any number of times (on tokens or
    on files, with any hash order, any sorting, any early stop), saved and loaded. [n] counts the
    training calls. *)
Inductive reachable : bpe -> nat -> Prop :=
| reach_new d : 127 <= d < 0x7FFE -> reachable (new_bpe d) 0
| reach_train order stop sorter b n tokens min_frequency num_merges b' :
    any_order order -> sorts_by_code sorter -> reachable b n ->
    train order stop sorter b tokens min_frequency num_merges = Ok b' -> reachable b' (S n)
| reach_train_on_file order stop sorter b n tokens b' :
    any_order order -> sorts_by_code sorter -> reachable b n ->
    train_on_file order stop sorter b tokens = Ok b' -> reachable b' (S n)
| reach_load b n d : reachable b n ->
    Forall (fun e => forall c, In c (snd e) -> c < 0x7FFF) (ordered_bpe_codes b) ->
    reachable (load (new_bpe d) (save b)) n.
