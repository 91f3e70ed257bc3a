(** Model of src/util/text_encoder_decoder.hpp. *)
From Coq Require Import Ascii String List Bool.
From Verif Require Import Chars.
Import ListNotations.
Open Scope char_scope.

(** src/util/text_encoder_decoder.hpp:20-30, body of the loop of [encodeString]. *)
Definition encode_char (delimiter c : ascii) : str :=
  if ceq c "<" then lit "<_<"
  else if ceq c delimiter then lit "<~D>"
  else if ceq c NL then lit "<~N>"
  else [c].

(** src/util/text_encoder_decoder.hpp:18-32 [encodeString]. *)
Definition encodeString (s : str) (delimiter : ascii) : str :=
  flat_map (encode_char delimiter) s.

(** src/util/text_encoder_decoder.hpp:34-67 [decodeString]; the index loop becomes a
    recursion on the remaining text. [i + 2 < size] at line 37 says that at least two
    characters follow; at line 48 the index has advanced by one. *)
Fixpoint decodeString (s : str) (delimiter : ascii) {struct s} : str :=
  match s with
  | [] => []
  | c0 :: t0 =>
    if ceq c0 "<" then
      match t0 with
      | c1 :: ((c2 :: t2) as t1) =>
        if ceq c1 "_" then
          (if ceq c2 "<" then ["<"]
           else if ceq c2 "_" then ["<"; "_"]
           else ["<"; c2]) ++ decodeString t2 delimiter
        else if ceq c1 "~" then
          match t2 with
          | c3 :: t3 =>
            if ceq c2 "D" && ceq c3 ">" then delimiter :: decodeString t3 delimiter
            else if ceq c2 "N" && ceq c3 ">" then NL :: decodeString t3 delimiter
            else "<" :: c2 :: decodeString t2 delimiter
          | [] => "<" :: c1 :: decodeString t1 delimiter
          end
        else "<" :: c1 :: decodeString t1 delimiter
      | _ => c0 :: decodeString t0 delimiter
      end
    else c0 :: decodeString t0 delimiter
  end.
