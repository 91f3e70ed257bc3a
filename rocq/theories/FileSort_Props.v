(** C12 - sorting a text file. *)
From Coq Require Import Ascii String List Bool Arith NArith Permutation.
From Verif Require Import Chars Lines_Model FileSort_Model FileSort_Spec FileSort_Proofs.
Import ListNotations.

(** C12: for every content, every chunk size (0 included), every tie-breaking of the priority
    queue: the header line comes first, then the non-empty lines in byte order - the same
    multiset without de-duplication, the same set strictly increasing with it. *)
Theorem file_sort_result :
  forall pick, min_queue pick ->
  forall opens content (has_header : bool) chunk_size delete_duplicates, (forall i, opens i = true) ->
  let input := if has_header then tl (lines_of content) else lines_of content in
  exists R, fst (sort_file pick opens content has_header chunk_size delete_duplicates) = true /\
    lines_of (snd (sort_file pick opens content has_header chunk_size delete_duplicates))
      = (if has_header then [hd [] (lines_of content)] else []) ++ R /\
    ordered byte_le R /\
    (delete_duplicates = false -> Permutation R (filter (fun l => negb (seq_eqb l [])) input)) /\
    (delete_duplicates = true -> ordered byte_lt R /\ forall l, In l R <-> In l input /\ l <> []).
Proof.
  intros pick H opens content hh n dd Ho. cbv zeta.
  rewrite (filter_ext (fun l => negb (seq_eqb l [])) nonempty) by (intros []; reflexivity).
  exact (sort_file_spec pick H opens content hh n dd Ho).
Qed.
Print Assumptions file_sort_result.

(** C12: chunk size and queue tie-breaking do not influence the result. *)
Theorem file_sort_chunk_independent :
  forall pick1 pick2 opens content has_header n1 n2 delete_duplicates,
    min_queue pick1 -> min_queue pick2 -> (forall i, opens i = true) ->
    sort_file pick1 opens content has_header n1 delete_duplicates
    = sort_file pick2 opens content has_header n2 delete_duplicates.
Proof. exact sort_chunk_independent. Qed.
Print Assumptions file_sort_chunk_independent.

(** Finding: if the temporary chunk files cannot be opened, the result is empty although
    success is reported. *)
Theorem file_sort_failure_reported_refuted :
  exists content, lines_of content <> [] /\
    sort_file pick_min (fun _ => false) content false 100 true = (true, []).
Proof. exists (lit "a"). split; [discriminate|reflexivity]. Qed.
Print Assumptions file_sort_failure_reported_refuted.

Example file_sort_ex :
  let c := lit "h" ++ [NL] ++ lit "b" ++ [NL; NL] ++ lit "a" ++ [NL] ++ lit "b" in
  min_queue pick_min /\
  sort_file pick_min (fun _ => true) c true 2 true =
    (true, lit "h" ++ [NL] ++ lit "a" ++ [NL] ++ lit "b" ++ [NL]) /\
  sort_file pick_min (fun _ => true) c true 0 false =
    (true, lit "h" ++ [NL] ++ lit "a" ++ [NL] ++ lit "b" ++ [NL] ++ lit "b" ++ [NL]).
Proof. split; [exact pick_min_queue|]. split; reflexivity. Qed.
