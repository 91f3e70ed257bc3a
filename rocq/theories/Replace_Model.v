(** Model of the substitution functions of src/util/data_util.hpp, for any character type
    ([char] in [string_replace_all], [char16_t] in [u16string_replace_all]). *)
From Coq Require Import List Bool Arith.
Import ListNotations.

Section Replace.
Context {A : Type} (eqb : A -> A -> bool).

(** Does [s] start with [pat]; if so, what follows. *)
Fixpoint strip_prefix (pat s : list A) : option (list A) :=
  match pat, s with
  | [], _ => Some s
  | p :: pat', c :: s' => if eqb p c then strip_prefix pat' s' else None
  | _ :: _, [] => None
  end.

(** [basic_string::find(pat, start)] on the text from [start] on: the text before the first
    occurrence and the text after it (src/util/data_util.hpp:265, 314). *)
Fixpoint find_split (pat s : list A) : option (list A * list A) :=
  match strip_prefix pat s with
  | Some rest => Some ([], rest)
  | None => match s with
            | [] => None
            | c :: s' => match find_split pat s' with
                         | Some (before, after) => Some (c :: before, after)
                         | None => None
                         end
            end
  end.

(** src/util/data_util.hpp:313-328 (and 264-279): the loop. [fuel] bounds the number of
    iterations; the loop stops when the rest is empty or nothing is found. *)
Fixpoint replace_loop (fuel : nat) (pat rep rest : list A) : list A :=
  match fuel with
  | O => rest
  | S fuel' =>
    match rest with
    | [] => []
    | _ :: _ =>
      match find_split pat rest with
      | None => rest
      | Some (before, after) => before ++ rep ++ replace_loop fuel' pat rep after
      end
    end
  end.

(** src/util/data_util.hpp:291-330 [string_replace_all] and 242-288 [u16string_replace_all].
    Both return the input when the pattern is empty. Each iteration removes at least the
    pattern, so [length s] iterations are enough (shown in Replace_Proofs). *)
Definition replace_all (s pat rep : list A) : list A :=
  match pat with
  | [] => s
  | _ :: _ => replace_loop (length s) pat rep s
  end.
End Replace.
