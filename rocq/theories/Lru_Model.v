(** Model of src/util/lru_cache.h [LruCache] (keys only: the values are never read). *)
From Coq Require Import List Bool Arith NArith.
From Verif Require Import Outcome.
Import ListNotations.

(** Members (src/util/lru_cache.h:38-40): [lru_list_] front first; the keys of [cache_map_]. *)
Record lru := { capacity : nat; lru_list : list N; cache_map : list N }.

Definition new_lru (c : nat) : lru := {| capacity := c; lru_list := []; cache_map := [] |}.

Definition mem (k : N) (l : list N) : bool := existsb (N.eqb k) l.

(** src/util/lru_cache.h:20-22 [contains]. *)
Definition contains (s : lru) (k : N) : bool := mem k (cache_map s).

(** src/util/lru_cache.h:24-35 [insert]: [back()] of an empty list is undefined. *)
Definition insert (s : lru) (k : N) : outcome lru :=
  do st <- (if Nat.leb (capacity s) (length (cache_map s)) then
              match lru_list s with
              | [] => UB
              | x :: r => Ok (removelast (lru_list s), filter (fun y => negb (N.eqb y (last (lru_list s) x))) (cache_map s))
              end
            else Ok (lru_list s, cache_map s));
  let (l, m) := st : list N * list N in
  Ok {| capacity := capacity s; lru_list := k :: l; cache_map := if mem k m then m else k :: m |}.

(** src/util/file_writer.hpp:167-170: how the writer uses it. The result says whether the key
    was new. *)
Definition touch (s : lru) (k : N) : outcome (lru * bool) :=
  if contains s k then Ok (s, false) else do s' <- insert s k; Ok (s', true).

Fixpoint touch_all (s : lru) (ks : list N) : outcome (lru * list bool) :=
  match ks with
  | [] => Ok (s, [])
  | k :: r => do p <- touch s k; do q <- touch_all (fst p) r; Ok (fst q, snd p :: snd q)
  end.
