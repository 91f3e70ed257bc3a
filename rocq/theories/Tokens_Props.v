(** C14, C15 - tokenisation and sample splitting. *)
From Coq Require Import Ascii String List Bool Arith NArith Permutation.
From Verif Require Import Chars Outcome Tokens_Model Tokens_Spec Tokens_Proofs.
Import ListNotations.
Open Scope char_scope.

(** C14: put together, the tokens are the text, up to carriage returns, repetitions of a
    white-space character and unprintable characters. *)
Theorem tokens_keep_text : forall text, concat (string_to_tokens text) = normalised (ascii_of_N 0) text.
Proof. exact tokens_concat. Qed.
Print Assumptions tokens_keep_text.

Theorem tokens_keep_tidy_text : forall text, tidy (ascii_of_N 0) text -> concat (string_to_tokens text) = text.
Proof. exact (fun text H => eq_trans (tokens_concat text) (tidy_normalised _ text H)). Qed.
Print Assumptions tokens_keep_tidy_text.

(** C14: what tokens look like; in particular none is empty. *)
Theorem tokens_have_shape : forall text, Forall token_shape (string_to_tokens text).
Proof. exact tokens_shape. Qed.
Print Assumptions tokens_have_shape.

(** C14: reading a file in buffers of any size gives the tokens of the whole text. *)
Theorem tokens_chunk_independent :
  forall buffer_size content, load_file_to_tokens buffer_size content = string_to_tokens content.
Proof. exact load_chunks. Qed.
Print Assumptions tokens_chunk_independent.

(** The unqualified claim "the concatenation is the text" is false. *)
Theorem tokens_keep_every_text_refuted : exists text, concat (string_to_tokens text) <> text.
Proof. exists (lit "a  b"). cbn. discriminate. Qed.
Print Assumptions tokens_keep_every_text_refuted.

(** C15: for every shuffle and every requested size not above the number of samples. *)
(** Partial, C15: missing is that the requested size never exceeds the list, see [split_size_bounded_refuted]. *)
Theorem split_is_partition_partial :
  forall A (data : list A) indices validation_size,
    Permutation indices (seq 0 (length data)) -> validation_size <= length data ->
    exists train valid, splitData data indices validation_size = Ok (train, valid) /\
      Permutation (train ++ valid) data /\
      length valid = validation_size /\ length train = length data - validation_size.
Proof. exact @split_spec. Qed.
Print Assumptions split_is_partition_partial.

Theorem sample_is_part :
  forall A (data : list A) indices validation_size,
    Permutation indices (seq 0 (length data)) -> validation_size <= length data ->
    exists rest sample, sampleData data indices validation_size = Ok sample /\
      Permutation (rest ++ sample) data /\ length sample = validation_size.
Proof. exact @sample_spec. Qed.
Print Assumptions sample_is_part.

(** Finding: with ratio 1 the size computed in [float] can exceed the number of samples
    (first at 16777219), and then the split is undefined. *)
Theorem split_size_bounded_refuted :
  (16777219 < f32_of_N 16777219)%N /\
  forall A (data : list A) indices n, length data < n -> splitData data indices n = UB.
Proof.
  split; [reflexivity|]. intros A data indices n H. unfold splitData.
  rewrite (proj2 (Nat.leb_gt n (length data)) H). reflexivity.
Qed.
Print Assumptions split_size_bounded_refuted.

Example tokens_ex :
  string_to_tokens (lit "Pi is 3.14, ok.") =
    [lit "Pi"; lit " is"; lit " 3.14"; lit ","; lit " ok"; lit "."] /\
  tidy (ascii_of_N 0) (lit "Pi is 3.14, ok.").
Proof. split; [reflexivity|]. cbn. repeat split; discriminate. Qed.
Example split_ex : splitData [10; 20; 30] [2; 0; 1] 1 = Ok ([30; 10], [20]) /\
  Permutation [2; 0; 1] (seq 0 3).
Proof. split; [reflexivity|]. cbn. apply (Permutation_app_comm [2] [0; 1]). Qed.
