(** Model of how the accuracy of a network is measured.

    Simplifications, for every definition in this file: what the network predicts for the given part of a
    record, and the text a decoder makes of a tensor, are parameters; a data set is the list of its records,
    in the order in which [nextRecord] returns them after [restart]. *)
From Coq Require Import List Arith Bool ZArith.
From Flocq Require Import IEEE754.BinarySingleNaN IEEE754.Binary IEEE754.Bits.
From Verif Require Import Outcome Chars F32_Model Tensor_Model Reduce_Model.
Import ListNotations.

(** [std::round]: to the nearest integer, halves away from zero. *)
Definition std_round (x : F) : F := Bnearbyint 24 128 emax_ok unop_nan_pl32 mode_NA x.
(** src/types/quarter_float.hpp:172-177, for [float]; 1000 times [epsilon] is a [float]. *)
Definition thousand_epsilon : F := binary_normalize 24 128 prec_ok emax_ok mode_NE 1000 (-23) false.
Definition smallest_normal : F := binary_normalize 24 128 prec_ok emax_ok mode_NE 1 (-126) false.
Definition roughlyEqual (f1 f2 : F) : bool :=
  let abs_diff := b32_abs (fsub f1 f2) in
  fle abs_diff thousand_epsilon || flt abs_diff smallest_normal.

Section Accuracy.
Context {G : Type} (predict : G -> outcome (list (tensor F))).
(** A record: what is given, and what is expected. *)
Notation record := (G * list (tensor F))%type.

(** src/ml/neural_network.hpp:289-294, 311-316 and 320-325, 341-346: the loop over the records, with [hit] for
    its body. *)
Fixpoint count (hit : record -> outcome bool) (limit : Z) (accuracy total : F) (records : list record) : outcome F :=
  match records with
  | [] => Ok (fdiv accuracy total)
  | nextRecord :: records =>
      if (limit <? 0)%Z || flt total (of_Z limit) then
        do matched_all <- hit nextRecord;
        count hit limit (if matched_all then fadd accuracy (of_Z 1) else accuracy) (fadd total (of_Z 1)) records
      else Ok (fdiv accuracy total)
  end.

(** src/ml/neural_network.hpp:302-307: the inner loop; [break] leaves only this loop. *)
Fixpoint same_values (n j : nat) (best_prediction best_actual : tensor F) : outcome bool :=
  match n with
  | O => Ok true
  | S n =>
      do p <- flat best_prediction j;
      do a <- flat best_actual j;
      if roughlyEqual (std_round p) (std_round a) then same_values n (S j) best_prediction best_actual else Ok false
  end.
(** src/ml/neural_network.hpp:294-311; [expected_shapes] is the number of expected shapes. *)
Definition binary_hit (expected_shapes : nat) (r : record) : outcome bool :=
  do prediction <- predict (fst r);
  let actual := snd r in
  loop expected_shapes 0 (fun i matched_all =>
    do best_prediction <- vec_at prediction i;
    do best_actual <- vec_at actual i;
    do same <- same_values (length prediction) 0 best_prediction best_actual;
    Ok (matched_all && same)) true.
(** src/ml/neural_network.hpp:288-317 *)
Definition compute_binary_accuracy (expected_shapes : nat) (records : list record) (limit : Z) : outcome F :=
  count (binary_hit expected_shapes) limit (of_Z 0) (of_Z 0) records.

(** src/ml/neural_network.hpp:329-338 *)
Fixpoint same_texts (decoders : list (tensor F -> outcome str)) (i : nat) (prediction actual : list (tensor F)) : outcome bool :=
  match decoders with
  | [] => Ok true
  | decodeBest :: decoders =>
      do p <- vec_at prediction i;
      do best_prediction <- decodeBest p;
      do a <- vec_at actual i;
      do best_actual <- decodeBest a;
      if list_eq_dec Ascii.ascii_dec best_prediction best_actual then same_texts decoders (S i) prediction actual else Ok false
  end.
(** src/ml/neural_network.hpp:325-341 *)
Definition categorical_hit (expected_decoders : list (tensor F -> outcome str)) (r : record) : outcome bool :=
  do prediction <- predict (fst r);
  same_texts expected_decoders 0 prediction (snd r).
(** src/ml/neural_network.hpp:319-346 *)
Definition compute_categorical_accuracy (expected_decoders : list (tensor F -> outcome str)) (records : list record) (limit : Z) : outcome F :=
  count (categorical_hit expected_decoders) limit (of_Z 0) (of_Z 0) records.
End Accuracy.

(** src/training_data/data_decoder.hpp:117-124 [BestTextCategoryDecoder::decodeBest], with
    src/util/tensor_utils.hpp:53-55 *)
Definition decodeBest (categoryLabels : list str) (t : tensor F) : outcome str :=
  do categoryIndex <- maxIndexByRow t 0 0;
  match nth_error categoryLabels categoryIndex with Some label => Ok label | None => Throw end.
