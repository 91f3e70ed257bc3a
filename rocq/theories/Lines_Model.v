(** Model of line files: src/util/file_writer.hpp [TextLineFileWriter] and
    src/util/file_reader.hpp [TextLinePathReader]. *)
From Coq Require Import Ascii String List Bool.
From Verif Require Import Chars.
Import ListNotations.

(** Successive [std::getline] results on a stream with this content: a line ends at each
    newline; text after the last newline is a line only if it is not empty. *)
Fixpoint lines_of (content : str) : list str :=
  match content with
  | [] => []
  | c :: t =>
    if ceq c NL then [] :: lines_of t
    else match lines_of t with
         | [] => [[c]]
         | l :: ls => (c :: l) :: ls
         end
  end.

(** src/util/file_writer.hpp:41-46 [writeLine] called once per line: the file content. *)
Definition write_lines (lines : list str) : str := flat_map (fun l => l ++ [NL]) lines.

(** State of [TextLinePathReader] (src/util/file_reader.hpp:112-117). [lr_cur] are the lines
    [getline] has still to deliver from the open stream, [lr_rest] the lines of the files after
    [current_file]. Simplification: every listed file can be opened. *)
Record line_reader := {
  lr_open : bool;
  lr_cur : list str;
  lr_rest : list (list str);
  lr_has_next : bool;
  lr_next_line : str;
  lr_skip_header : bool }.

(** src/util/file_reader.hpp:62-64 [hasNext]. *)
Definition hasNext (r : line_reader) : bool := lr_has_next r.

(** src/util/file_reader.hpp:66-98 [nextLine]; lines 80-89 open the next file, with
    [skipHeader] (105-110): on a file without any line it clears [has_next], and the
    [getline] that follows fails as well. *)
Definition nextLine (r : line_reader) : str * line_reader :=
  let result := lr_next_line r in
  if lr_has_next r then
    if negb (lr_open r) then
      (result, {| lr_open := false; lr_cur := lr_cur r; lr_rest := lr_rest r;
                  lr_has_next := false; lr_next_line := []; lr_skip_header := lr_skip_header r |})
    else match lr_cur r with
         | line :: cur' =>
           (result, {| lr_open := true; lr_cur := cur'; lr_rest := lr_rest r;
                       lr_has_next := true; lr_next_line := line; lr_skip_header := lr_skip_header r |})
         | [] =>
           match lr_rest r with
           | f :: rest' =>
             match (if lr_skip_header r then tl f else f) with
             | line :: cur' =>
               (result, {| lr_open := true; lr_cur := cur'; lr_rest := rest';
                           lr_has_next := true; lr_next_line := line; lr_skip_header := lr_skip_header r |})
             | [] =>
               (result, {| lr_open := true; lr_cur := []; lr_rest := rest';
                           lr_has_next := false; lr_next_line := []; lr_skip_header := lr_skip_header r |})
             end
           | [] =>
             (result, {| lr_open := false; lr_cur := []; lr_rest := [];
                         lr_has_next := false; lr_next_line := []; lr_skip_header := lr_skip_header r |})
           end
         end
  else (result, r).

(** src/util/file_reader.hpp:26-50, constructor; [files] are the contents of the regular
    files of the directory in iteration order (one element for a single file). *)
Definition open_path (files : list str) (skip_header : bool) : line_reader :=
  match map lines_of files with
  | [] => {| lr_open := false; lr_cur := []; lr_rest := []; lr_has_next := false;
             lr_next_line := []; lr_skip_header := skip_header |}
  | f :: rest =>
    let ok := if skip_header then match f with [] => false | _ => true end else true in
    let r := {| lr_open := true; lr_cur := if skip_header then tl f else f; lr_rest := rest;
                lr_has_next := ok; lr_next_line := []; lr_skip_header := skip_header |} in
    snd (nextLine r)
  end.

(** The usual loop [while (hasNext()) use(nextLine());], at most [fuel] rounds. *)
Fixpoint read_lines (fuel : nat) (r : line_reader) : list str :=
  match fuel with
  | O => []
  | S fuel' => if hasNext r then let (l, r') := nextLine r in l :: read_lines fuel' r' else []
  end.
