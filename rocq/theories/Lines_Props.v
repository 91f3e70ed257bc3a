(** C11 - reading lines of one file or of a directory. *)
From Coq Require Import Ascii String List Bool.
From Verif Require Import Chars Lines_Model Lines_Proofs.
Import ListNotations.

(** Lines without newlines survive being written and read. *)
Theorem write_then_read_lines :
  forall lines fuel, Forall (fun l => ~ In NL l) lines -> length lines <= fuel ->
    read_lines fuel (open_path [write_lines lines] false) = lines.
Proof.
  intros lines fuel H Hf.
  exact (eq_trans (read_single _ _ (eq_ind_r (fun x => length (x ++ []) <= fuel)
     (eq_ind_r (fun x => length x <= fuel) Hf (app_nil_r lines)) (lines_of_write lines H)))
     (lines_of_write lines H)).
Qed.
Print Assumptions write_then_read_lines.

(** C11, positive part: if every file has a line to deliver (after dropping its header line
    when headers are skipped), all lines of all files are delivered once, in order, and the
    loop ends after them, however many rounds are allowed. *)
Theorem directory_lines_complete_partial :
  forall files (skip_header : bool) fuel, total_lines files <= fuel ->
    Forall (fun f => (if skip_header then tl (lines_of f) else lines_of f) <> []) files ->
    read_lines fuel (open_path files skip_header)
    = concat (map (fun f => if skip_header then tl (lines_of f) else lines_of f) files).
Proof. exact read_all_complete. Qed.
Print Assumptions directory_lines_complete_partial.

(** C11: for any files, what is delivered is an initial part of the expected lines (nothing is
    invented, reordered or repeated). *)
Theorem directory_lines_prefix :
  forall files (skip_header : bool) fuel, total_lines files <= fuel ->
    exists missing,
      concat (map (fun f => if skip_header then tl (lines_of f) else lines_of f) files)
      = read_lines fuel (open_path files skip_header) ++ missing.
Proof. exact read_all_prefix. Qed.
Print Assumptions directory_lines_prefix.

(** C11 refuted: an empty file in the middle hides every later file. *)
Theorem directory_lines_complete_refuted :
  exists files, forall fuel,
    read_lines fuel (open_path files false) <> concat (map lines_of files).
Proof.
  exists [lit "a"; lit ""; lit "b"]. intros [|[|[|fuel]]]; cbn; discriminate.
Qed.
Print Assumptions directory_lines_complete_refuted.

(** ... and with header skipping even an empty or header-only first file does. *)
Theorem directory_lines_header_refuted :
  exists files, forall fuel,
    read_lines fuel (open_path files true) <> concat (map (fun f => tl (lines_of f)) files).
Proof.
  exists [lit ""; [ "h"%char; NL; "b"%char]]. intros [|fuel]; cbn; discriminate.
Qed.
Print Assumptions directory_lines_header_refuted.

Example lines_ex :
  let f1 := ["h"; NL; "a"; NL]%char in let f2 := ["h"; NL; "b"; NL; NL; "c"]%char in
  read_lines 10 (open_path [f1; f2] true) = [lit "a"; lit "b"; []; lit "c"] /\
  Forall (fun f => tl (lines_of f) <> []) [f1; f2].
Proof. cbn. split; [reflexivity|]. repeat constructor; discriminate. Qed.
