(** C09, C10 - delimited text files. *)
From Coq Require Import Ascii String List Bool Arith NArith Lia.
From Verif Require Import Chars Outcome Lines_Model Lines_Proofs Delimited_Model Delimited_Spec Delimited_Proofs.
Import ListNotations.
Open Scope char_scope.

(** C09 for fields a delimited file can hold ([plain_field]), whatever texts [from_chars]
    finds out of range. The full claim also covers numbers-with-a-tail, doubled quotes and
    outer quotes, for which it is false (see the refutations below). *)
Theorem delimited_round_trip_partial :
  forall in_range delimiter records fuel,
    delimiter <> DQ -> delimiter <> NL ->
    Forall (fun r => r <> [] /\ Forall (plain_field delimiter) r) records ->
    length records <= fuel ->
    read_records delimiter fuel (open_path [write_records in_range delimiter records] false)
    = Ok records.
Proof. exact round_trip. Qed.
Print Assumptions delimited_round_trip_partial.

(** C09 refuted: a text that merely starts like a number is not quoted, and splits. *)
Theorem delimited_round_trip_number_refuted :
  forall fuel,
    read_records "," (S (S fuel)) (open_path [write_records (fun _ => true) "," [[lit "1,5"]]] false)
    = Ok [[lit "1"; lit "5"]].
Proof. reflexivity. Qed.
Print Assumptions delimited_round_trip_number_refuted.

(** C09 refuted: two quotes in a row inside a field become one. *)
Theorem delimited_round_trip_double_quote_refuted :
  forall fuel,
    read_records "," (S (S fuel))
      (open_path [write_records (fun _ => true) "," [[["a"; DQ; DQ; "b"]]]] false)
    = Ok [[["a"; DQ; "b"]]].
Proof. reflexivity. Qed.
Print Assumptions delimited_round_trip_double_quote_refuted.

(** C09 refuted: outer quotes are lost. *)
Theorem delimited_round_trip_outer_quote_refuted :
  forall fuel,
    read_records "," (S (S fuel)) (open_path [write_records (fun _ => true) "," [[[DQ; "b"; DQ]]]] false)
    = Ok [[lit "b"]].
Proof. reflexivity. Qed.
Print Assumptions delimited_round_trip_outer_quote_refuted.

(** C10: one record. [remaining] are the lines still to be delivered. A record takes the
    fewest lines (at least one) that together contain an even number of quotes, and has one
    field more than there are delimiters preceded by an even number of quotes; if there is no
    such number of lines, the unclosed quote is reported; nothing is undefined. *)
Theorem delimited_next_record :
  forall delimiter r, delimiter <> DQ ->
    let remaining x := read_lines (reader_size x) x in
    match nextRecord delimiter r with
    | Ok (fields, r') =>
        (remaining r = [] /\ fields = [[]] /\ remaining r' = []) \/
        exists k, record_lines (remaining r) k /\
                  remaining r' = skipn k (remaining r) /\
                  length fields = S (field_breaks delimiter (joined (firstn k (remaining r))))
    | Throw => remaining r <> [] /\ forall k, ~ record_lines (remaining r) k
    | UB => False
    end.
Proof. exact nextRecord_remaining. Qed.
Print Assumptions delimited_next_record.

(** C10: reading every record of any files ends (more rounds than lines change nothing) and is
    never undefined. *)
Theorem delimited_read_total :
  forall delimiter files skip_header rounds, delimiter <> DQ -> total_lines files <= rounds ->
    read_records delimiter rounds (open_path files skip_header)
      = read_records delimiter (total_lines files) (open_path files skip_header) /\
    read_records delimiter rounds (open_path files skip_header) <> UB.
Proof. exact read_records_total. Qed.
Print Assumptions delimited_read_total.

Example delimited_ex :
  let recs := [[lit "1.5"; lit "a,b<c"; []]; [["x"; DQ; "y"; NL; "z"]]] in
  write_records (fun _ => true) "," recs =
    lit "1.5," ++ [DQ] ++ lit "a<~D>b<_<c" ++ [DQ] ++ lit "," ++ [NL] ++
    [DQ; "x"; DQ; DQ; "y"] ++ lit "<~N>z" ++ [DQ; NL] /\
  read_records "," 5 (open_path [write_records (fun _ => true) "," recs] false) = Ok recs.
Proof. split; reflexivity. Qed.

Example plain_field_ex : plain_field "," (lit "1.5") /\ plain_field "," ["x"; DQ; "y"; NL; "z"].
Proof.
  split; split.
  - split; intros c t E.
    + injection E as <- _. rewrite <- isspace_white. discriminate.
    + assert (c = "5"). { change (lit "1.5") with (lit "1." ++ ["5"]) in E. apply app_inj_tail in E. symmetry. apply E. }
      subst. rewrite <- isspace_white. discriminate.
  - intros (a & b & [=] & _).
  - rewrite nodq_spec. cbn. intuition discriminate.
  - intros _. cbn. intuition discriminate.
  - split; intros c t E.
    + injection E as <- _. rewrite <- isspace_white. discriminate.
    + assert (c = "z"). { change ["x"; DQ; "y"; NL; "z"] with (["x"; DQ; "y"; NL] ++ ["z"]) in E. apply app_inj_tail in E. symmetry. apply E. }
      subst. rewrite <- isspace_white. discriminate.
  - intros (a & b & [=] & _).
  - rewrite nodq_spec. cbn. intuition discriminate.
  - intros (u & [E|E] & H); [subst u|discriminate].
    destruct H as [(x & t & E & D)|[(x & t & E & D)|[(x & y & z & t & E & D & _)|(x & y & z & t & E & D & _)]]].
    + injection E as <- _. unfold digit in D. cbv in D. destruct D as [_ D]. now contradiction D.
    + discriminate.
    + injection E as <- _. destruct D as [D|D]; discriminate.
    + injection E as <- _. destruct D as [D|D]; discriminate.
Qed.
