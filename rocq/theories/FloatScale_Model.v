(** Model of the scaling of a column of numbers as the code computes it: the statistics in [double] and the members of the metadata in [float].
    The views and their order are those of [Scaling_Model], in binary32. *)
From Coq Require Import List Bool Arith NArith ZArith.
From Flocq Require Import IEEE754.BinarySingleNaN IEEE754.Binary IEEE754.Bits.
From Verif Require Import F32_Model Scaling_Model Reduce_Model FloatNet_Model.
Import ListNotations.

(** [std::min(a, b)] and [std::max(a, b)] of doubles. *)
Definition dlt (x y : D) : bool := match b64_compare x y with Some Lt => true | _ => false end.
Definition dmin (a b : D) : D := if dlt b a then b else a.
Definition dmax (a b : D) : D := if dlt a b then b else a.
Definition double1 : D := double_of 1.
(** [numeric_limits<double>::max()] and [lowest()]. *)
Definition double_max : D := B754_finite 53 1024 false 9007199254740991 971 eq_refl.
Definition double_lowest : D := b64_opp double_max.

(** src/util/tensor_utils.hpp:161-177 [StandardizationAndNormalizationValues]. *)
Record tally := { t_mean : D; t_deviation : D; t_M2 : D; t_total : D; t_min : D; t_max : D }.
Definition tally0 : tally := {| t_mean := double0; t_deviation := double0; t_M2 := double0; t_total := double0; t_min := double_max; t_max := double_lowest |}.
(** src/util/tensor_utils.hpp:187-196: the body of the loop. *)
Definition tally_value (s : tally) (element : F) : tally :=
  let value := widen element in
  let total := dadd (t_total s) double1 in
  let delta := dsub value (t_mean s) in
  let mean := dadd (t_mean s) (ddiv delta total) in
  let delta2 := dsub value mean in
  {| t_mean := mean; t_deviation := t_deviation s; t_M2 := dadd (t_M2 s) (dmul delta delta2); t_total := total;
     t_min := dmin (t_min s) value; t_max := dmax (t_max s) value |}.
(** src/util/tensor_utils.hpp:179-201: one tensor, its values in channel, row, column order. *)
Definition tally_tensor (s : tally) (tensor : list F) : tally :=
  let s := fold_left tally_value tensor s in
  {| t_mean := t_mean s; t_deviation := dsqrt (ddiv (t_M2 s) (t_total s)); t_M2 := t_M2 s; t_total := t_total s; t_min := t_min s; t_max := t_max s |}.
(** src/util/dataset_utils.hpp:214-258: the metadata of a column of numbers. *)
Definition column_metadata (tensors : list (list F)) : scaling float32 :=
  let s := fold_left tally_tensor tensors tally0 in
  {| is_standardized := dlt double1 (t_deviation s);
     mean := narrow (t_mean s) : num float32; standard_deviation := narrow (t_deviation s) : num float32;
     is_normalized := true; min_value := narrow (t_min s) : num float32; max_value := narrow (t_max s) : num float32 |}.
(** src/util/dataset_utils.hpp:260-287: the numbers of a column as the dataset holds them. *)
Definition stored_column (tensors : list (list F)) : list (list F) := map (map (scale float32 (column_metadata tensors))) tensors.
