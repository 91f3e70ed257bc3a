(** Vocabulary for C22, C23. *)
From Coq Require Import List Bool Arith NArith.
Import ListNotations.

(** Which keys of a sequence count as new when only the last [c] keys that counted as new are
    remembered; [recent] are those, latest first. *)
Fixpoint fresh_flags (c : nat) (recent : list N) (ks : list N) : list bool :=
  match ks with
  | [] => []
  | k :: r => if in_dec N.eq_dec k (firstn c recent) then false :: fresh_flags c recent r
              else true :: fresh_flags c (k :: recent) r
  end.

(** The elements whose flag is set. *)
Fixpoint chosen {A} (flags : list bool) (l : list A) : list A :=
  match flags, l with
  | true :: f, x :: r => x :: chosen f r
  | false :: f, _ :: r => chosen f r
  | _, _ => []
  end.

(** The flags of first occurrences. *)
Fixpoint first_flags (seen : list N) (ks : list N) : list bool :=
  match ks with
  | [] => []
  | k :: r => (if in_dec N.eq_dec k seen then false else true) :: first_flags (k :: seen) r
  end.
