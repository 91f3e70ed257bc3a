(** Model of src/types/trie.hpp [Trie]. *)
From Coq Require Import Ascii String List Bool Arith.
From Verif Require Import Chars.
Import ListNotations.

(** src/types/trie.hpp:20-24 [TrieNode]; the children in the order in which the hash map is
    iterated. *)
Inductive trie := Node (children : list (ascii * trie)) (value : str) (isEnd : bool).
Definition children (t : trie) := match t with Node c _ _ => c end.
Definition value (t : trie) := match t with Node _ v _ => v end.
Definition isEnd (t : trie) := match t with Node _ _ e => e end.
(** src/types/trie.hpp:30-32, the constructor. *)
Definition empty : trie := Node [] [] false.

(** [children.find(c)]. *)
Fixpoint child (c : ascii) (l : list (ascii * trie)) : option trie :=
  match l with
  | [] => None
  | (d, t) :: r => if ceq d c then Some t else child c r
  end.
Fixpoint set_child (c : ascii) (s : trie) (l : list (ascii * trie)) : list (ascii * trie) :=
  match l with
  | [] => []
  | (d, t) :: r => if ceq d c then (d, s) :: r else (d, t) :: set_child c s r
  end.

Section Insert.
(** [add l c]: the children after the new child [c] was put into the hash map holding [l] (any
    order may result, also by rehashing). *)
Context (add : list (ascii * trie) -> ascii * trie -> list (ascii * trie)).

(** src/types/trie.hpp:34-44 [insert]. The code walks shared nodes and changes them in place. *)
Fixpoint insert (word val : str) (t : trie) : trie :=
  match word with
  | [] => Node (children t) val true
  | c :: w =>
    match child c (children t) with
    | Some s => Node (set_child c (insert w val s) (children t)) (value t) (isEnd t)
    | None => Node (add (children t) (c, insert w val empty)) (value t) (isEnd t)
    end
  end.
End Insert.

(** The loop shared by the queries (e.g. src/types/trie.hpp:47-53): [None] where they return early. *)
Fixpoint walk (word : str) (t : trie) : option trie :=
  match word with
  | [] => Some t
  | c :: w => match child c (children t) with None => None | Some s => walk w s end
  end.

(** src/types/trie.hpp:46-55 *)
Definition search (t : trie) (word : str) : bool :=
  match walk word t with None => false | Some n => isEnd n end.
(** src/types/trie.hpp:57-66 *)
Definition startsWith (t : trie) (prefix : str) : bool :=
  match walk prefix t with None => false | Some _ => true end.
(** src/types/trie.hpp:68-80 *)
Definition lookup (t : trie) (word : str) : str :=
  match walk word t with None => [] | Some n => if isEnd n then value n else [] end.
(** src/types/trie.hpp:82-91; a child is never null. *)
Definition matches (t : trie) (word : str) : bool :=
  match walk word t with None => false | Some n => isEnd n end.

(** src/types/trie.hpp:107-117: the recursive function [dfs]; [best] is the captured [result]. *)
Fixpoint dfs (t : trie) (prefix best : str) : str :=
  match t with
  | Node ch _ e =>
    let best1 := if e && Nat.ltb (length best) (length prefix) then prefix else best in
    (fix go l b := match l with
                   | [] => b
                   | (c, s) :: r => go r (dfs s (prefix ++ [c]) b)
                   end) ch best1
  end.

(** src/types/trie.hpp:94-122 [complete]. *)
Definition complete (t : trie) (prefix : str) : str :=
  match walk prefix t with None => [] | Some n => dfs n prefix prefix end.
