(** Model of [convert_txt_to_csv], src/util/dataset_utils.hpp:89-123: the records handed to
    the CSV writer (the writer itself: Delimited_Model.v). *)
From Coq Require Import List Bool Arith NArith ZArith Ascii String.
From Verif Require Import Outcome Chars.
Import ListNotations.
Local Open Scope Z_scope.

Definition SP : ascii := " "%char.
Definition DOT : ascii := "."%char.

(** [std::getline(input, token, ' ')] until it fails; text after the last space counts only if
    it is not empty. *)
Fixpoint pieces (sep : ascii) (content : str) : list str :=
  match content with
  | [] => []
  | c :: t => if ceq c sep then [] :: pieces sep t
              else match pieces sep t with [] => [[c]] | l :: ls => (c :: l) :: ls end
  end.

(** Conversion of [int] to [size_t] in a comparison. *)
Definition int_to_size (z : Z) : Z := z mod 2 ^ 64.
Definition len (s : str) : Z := Z.of_nat (List.length s).

(** Line 107, the last two conditions; both indexes are in range when the length exceeds 1. *)
Definition sentence_end (token : str) : bool :=
  (1 <? len token) && (ceq (nth (List.length token - 1) token SP) DOT || ceq (nth (List.length token - 2) token SP) DOT).

(** Lines 102-116. *)
Fixpoint split_loop (limit near_limit : Z) (cell : str) (tokens : list str) : list str :=
  match tokens with
  | [] => match cell with [] => [] | _ => [cell] end
  | token :: rest =>
    if len cell + len token + 1 <=? int_to_size limit then
      let cell := (cell ++ SP :: token)%list in
      if (int_to_size near_limit <? len cell) && sentence_end token
      then cell :: split_loop limit near_limit token rest
      else split_loop limit near_limit cell rest
    else cell :: split_loop limit near_limit token rest
  end.

(** Lines 97-121; [character_limit * 4] must fit in [int]. *)
Definition txt_records (content : str) (character_limit : Z) : outcome (list str) :=
  if (-2 ^ 31 <=? character_limit * 4) && (character_limit * 4 <? 2 ^ 31)
  then Ok (split_loop character_limit (Z.quot (character_limit * 4) 5) [] (pieces SP content)) else UB.
