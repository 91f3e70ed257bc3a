(** Model of src/util/text_file_sorter.hpp [FileSorter]. *)
From Coq Require Import Ascii String List Bool Arith NArith.
From Verif Require Import Chars Lines_Model.
Import ListNotations.

(** [std::string] comparison [a <= b]: bytes compared as unsigned numbers, then length. *)
Fixpoint str_leb (a b : str) : bool :=
  match a, b with
  | [], _ => true
  | _ :: _, [] => false
  | x :: a', y :: b' =>
    if N.ltb (code x) (code y) then true
    else if N.eqb (code x) (code y) then str_leb a' b' else false
  end.

Fixpoint insert_line (l : str) (ls : list str) : list str :=
  match ls with
  | [] => [l]
  | h :: t => if str_leb l h then l :: ls else h :: insert_line l t
  end.

(** src/util/text_file_sorter.hpp:90-92 [sort_chunk]. [std::sort] is represented by insertion
    sort: byte strings that compare equal are equal, so every correct sort gives this list. *)
Definition sort_chunk (ls : list str) : list str := fold_right insert_line [] ls.

Definition nonempty (l : str) : bool := match l with [] => false | _ => true end.

(** src/util/text_file_sorter.hpp:46-79: the chunk files (as sorted line lists). [lines] is the
    buffer. The [int] chunk size is taken as a number (a negative one is converted to a huge
    one by the comparison with [size_t]). *)
Fixpoint make_chunks (chunk_size : nat) (lines input : list str) : list (list str) :=
  match input with
  | [] => if (match lines with [] => false | _ => true end) then [sort_chunk lines] else []
  | line :: rest =>
    let lines' := if nonempty line then lines ++ [line] else lines in
    if chunk_size <=? length lines' then sort_chunk lines' :: make_chunks chunk_size [] rest
    else make_chunks chunk_size lines' rest
  end.

(** An entry of the heap: the current line of a chunk file and the lines after it. *)
Definition heap := list (str * list str).

(** src/util/text_file_sorter.hpp:100-115: opening the chunk files; stops at the first one that
    cannot be opened ([opens i] says whether chunk [i] can). *)
Fixpoint open_chunks (opens : nat -> bool) (i : nat) (chunks : list (list str)) : heap :=
  match chunks with
  | [] => []
  | c :: rest =>
    if opens i then match c with
                    | [] => open_chunks opens (S i) rest
                    | l :: t => (l, t) :: open_chunks opens (S i) rest
                    end
    else []
  end.

Section Merge.
(** [top]/[pop] of the priority queue: which of several entries with the same least line comes
    first is unspecified. *)
Context (pick : heap -> option ((str * list str) * heap)).

(** src/util/text_file_sorter.hpp:137-151: the merge loop; [fuel] bounds the iterations. *)
Fixpoint merge_loop (fuel : nat) (delete_duplicates first_record : bool) (previous : str) (h : heap)
  : list str :=
  match fuel with
  | O => []
  | S fuel' =>
    match pick h with
    | None => []
    | Some ((line, stream), h') =>
      let h'' := match stream with [] => h' | l :: t => (l, t) :: h' end in
      if first_record || (negb (delete_duplicates && seq_eqb line previous) && nonempty line)
      then line :: merge_loop fuel' delete_duplicates false line h''
      else merge_loop fuel' delete_duplicates first_record previous h''
    end
  end.

Definition heap_size (h : heap) : nat := length (concat (map (fun e => fst e :: snd e) h)).

(** src/util/text_file_sorter.hpp:28-87 [sort] with 94-156 [merge_chunks]: the content of the
    result file. The function returns [true] whenever the input can be opened. *)
Definition sort_file (opens : nat -> bool) (content : str) (has_header : bool) (chunk_size : nat)
    (delete_duplicates : bool) : bool * str :=
  let all := lines_of content in
  let header := if has_header then hd [] all else [] in
  let input := if has_header then tl all else all in
  let h := open_chunks opens 0 (make_chunks chunk_size [] input) in
  let out := merge_loop (heap_size h) delete_duplicates true [] h in
  (true, write_lines ((if has_header then [header] else []) ++ out)).
End Merge.
