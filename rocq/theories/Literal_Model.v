(** Model of [unescapeString], src/lang/parser/parser.hpp:392-405. *)
From Coq Require Import Ascii String List Bool Arith NArith.
From Verif Require Import Chars Outcome Lexer_Model.
Import ListNotations.

(** Lines 397-403: after an erase the index points at the quote, which the loop then steps over. *)
Fixpoint unescape_loop (q : ascii) (s : str) : str :=
  match s with
  | [] => []
  | c :: r => if ceq c BSL then match r with
                                | d :: t => if ceq d q then d :: unescape_loop q t else c :: unescape_loop q r
                                | [] => [c]
                                end
              else c :: unescape_loop q r
  end.

(** Lines 393-394: [substr(1, size() - 2)]; for size 1 the count wraps and the rest is empty, for size 0 [substr]
    throws. *)
Definition unescapeString (original : str) : outcome str :=
  match original with
  | [] => Throw
  | q :: r => Ok (unescape_loop q (removelast r))
  end.
