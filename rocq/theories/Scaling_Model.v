(** Model of number scaling: the standardise / normalise views and the streamed statistics.
    The arithmetic is a parameter: the theorems use the reals (exact arithmetic) and IEEE
    binary32 ([F32_Model]). *)
From Coq Require Import Reals List Bool.
From Verif Require Import F32_Model.
From Flocq Require Import IEEE754.Bits.
Import ListNotations.

Record arith := { num : Type; a_add : num -> num -> num; a_sub : num -> num -> num; a_mul : num -> num -> num; a_div : num -> num -> num }.
Definition exact : arith := {| num := R; a_add := Rplus; a_sub := Rminus; a_mul := Rmult; a_div := Rdiv |}.
Definition float32 : arith := {| num := binary32; a_add := fadd; a_sub := fsub; a_mul := fmul; a_div := fdiv |}.

Section Views.
Variable A : arith.
Notation "x + y" := (a_add A x y). Notation "x - y" := (a_sub A x y).
Notation "x * y" := (a_mul A x y). Notation "x / y" := (a_div A x y).

(** src/types/tensor_views/standardize_tensor_view.hpp:48-51 *)
Definition standardise (mean std_dev val : num A) : num A := (val - mean) / std_dev.
(** src/types/tensor_views/unstandardize_tensor_view.hpp:20-23 *)
Definition unstandardise (mean std_dev val : num A) : num A := val * std_dev + mean.
(** src/types/tensor_views/normalize_tensor_view.hpp:22-32 *)
Definition normalise (min_val max_val val : num A) : num A := (val - min_val) / (max_val - min_val).
(** src/types/tensor_views/denormalize_tensor_view.hpp:16-24 *)
Definition denormalise (min_val max_val val : num A) : num A := val * (max_val - min_val) + min_val.

(** The scaling members of src/util/column_metadata.hpp:10-27 [BinaryColumnMetadata]. *)
Record scaling := { is_standardized : bool; mean : num A; standard_deviation : num A;
                    is_normalized : bool; min_value : num A; max_value : num A }.

(** src/util/dataset_utils.hpp:126-140 [standardize_and_normalize], one element; also
    src/training_data/data_encoder.hpp:109-114. *)
Definition scale (m : scaling) (val : num A) : num A :=
  let v := if is_standardized m then standardise (mean m) (standard_deviation m) val else val in
  if is_normalized m then normalise (min_value m) (max_value m) v else v.

(** src/util/dataset_utils.hpp:142-155 [unstandardize_and_denormalize]; also
    src/training_data/data_decoder.hpp:57-70 [RawDecoder::decode]. *)
Definition unscale (m : scaling) (val : num A) : num A :=
  let v := if is_normalized m then denormalise (min_value m) (max_value m) val else val in
  if is_standardized m then unstandardise (mean m) (standard_deviation m) v else v.

(** src/util/tensor_utils.hpp:248-269 [renormalizeAndStandardize], one element. *)
Definition rescale (original renormalize : scaling) (val : num A) : num A :=
  let v := if is_normalized original then denormalise (min_value original) (max_value original) val else val in
  let v := if is_standardized original then unstandardise (mean original) (standard_deviation original) v else v in
  let v := if is_standardized renormalize then standardise (mean renormalize) (standard_deviation renormalize) v else v in
  if is_normalized renormalize then normalise (min_value renormalize) (max_value renormalize) v else v.
End Views.

(** src/util/tensor_utils.hpp:161-177 [StandardizationAndNormalizationValues], in exact arithmetic. *)
Record stats := { mean_result : R; s_deviation : R; M2 : R; total_elements : R; s_min : R; s_max : R }.
(** [numeric_limits<double>::max()] *)
Definition dbl_max : R := IZR ((2 ^ 53 - 1) * 2 ^ 971).
Definition stats0 : stats :=
  {| mean_result := 0; s_deviation := 0; M2 := 0; total_elements := 0; s_min := dbl_max; s_max := - dbl_max |}.

(** The body of the loop, src/util/tensor_utils.hpp:187-196. *)
Definition update_value (s : stats) (value : R) : stats :=
  let n := (total_elements s + 1)%R in
  let delta := (value - mean_result s)%R in
  let mean' := (mean_result s + delta / n)%R in
  {| mean_result := mean'; s_deviation := s_deviation s; M2 := (M2 s + delta * (value - mean'))%R; total_elements := n;
     s_min := Rmin (s_min s) value; s_max := Rmax (s_max s) value |}.
(** src/util/tensor_utils.hpp:179-201 [update_standardization_normalization_values_calculation]:
    one tensor, its values in channel, row, column order. *)
Definition update_tensor (s : stats) (tensor : list R) : stats :=
  let s' := fold_left update_value tensor s in
  {| mean_result := mean_result s'; s_deviation := sqrt (M2 s' / total_elements s'); M2 := M2 s'; total_elements := total_elements s';
     s_min := s_min s'; s_max := s_max s' |}.
(** The streamed statistics of a column, src/util/dataset_utils.hpp:214-235. *)
Definition column_stats (tensors : list (list R)) : stats := fold_left update_tensor tensors stats0.

(** src/util/dataset_utils.hpp:236-247: the metadata of a number column. The casts to float are
    dropped. *)
Definition column_scaling (tensors : list (list R)) : scaling exact :=
  let s := column_stats tensors in
  {| is_standardized := if Rlt_dec 1 (s_deviation s) then true else false;
     mean := (mean_result s : num exact); standard_deviation := s_deviation s : num exact; is_normalized := true;
     min_value := s_min s : num exact; max_value := s_max s : num exact |}.

(** src/types/tensor_views/standardize_tensor_view.hpp:20-41: the one argument constructor. *)
Definition view_mean (values : list R) : R :=
  fold_left (fun mean value => (mean + (value - mean) / INR (length values))%R) values 0%R.
