(** Model of how a picture of a dataset is shown as text.

    Simplifications: the numbers of rows and columns are far from 2^64; operations in [float] are not fused; a line is the list of its bytes. *)
From Coq Require Import List Arith Bool ZArith NArith.
From Flocq Require Import IEEE754.BinarySingleNaN IEEE754.Binary IEEE754.Bits.
From Verif Require Import Outcome Tensor_Model F32_Model Reduce_Model FloatNet_Model FloatOpt_Model.
Import ListNotations.

(** src/training_data/data_decoder.hpp:161: blank, light shade, medium shade, dark shade and full block of code page 437. *)
Definition ascii_chars : list N := [32; 176; 177; 178; 219]%N.
(** src/training_data/data_decoder.hpp:178: the literals 0.299f, 0.587f and 0.114f. *)
Definition red_weight : F := literal 10032775 (-25).
Definition green_weight : F := literal 9848226 (-24).
Definition blue_weight : F := literal 15300821 (-27).
(** src/training_data/data_decoder.hpp:175-178 and 180-183 *)
Definition luminance (red green blue : F) : F := fadd (fadd (fmul red_weight red) (fmul green_weight green)) (fmul blue_weight blue).
Definition pixel (t : FT) (row col : nat) : outcome F :=
  if (3 <=? chans t)%nat then
    do red <- get t row col 0;
    do green <- get t row col 1;
    do blue <- get t row col 2;
    Ok (luminance red green blue)
  else get t row col 0.
(** src/training_data/data_decoder.hpp:195: [std::clamp] by hand, NaN stays NaN. *)
Definition between_0_and_1 (v : F) : F := if flt v float0 then float0 else if fgt v float1 then float1 else v.
(** src/training_data/data_decoder.hpp:169-195: the body of the inner loop. *)
Definition gray_scale (t : FT) (row col : nat) : outcome F :=
  let second := (row + 1 <? rows t)%nat in
  do grayScale <-
    (if ((3 <=? chans t) || (chans t =? 1))%nat then
       do grayScale <- pixel t row col;
       if second then do other <- pixel t (row + 1) col; Ok (fdiv (fadd grayScale other) (of_Z 2)) else Ok grayScale
     else Ok float0);
  Ok (between_0_and_1 (fdiv grayScale (of_Z (Z.of_nat (chans t * (if second then 2 else 1)))))).
(** src/training_data/data_decoder.hpp:164-200: rows 0, 2, 4 ... *)
Definition gray_scales (t : FT) : outcome (list (list F)) :=
  omapM (fun pair => omapM (fun col => gray_scale t (2 * pair) col) (seq 0 (cols t))) (seq 0 ((rows t + 1) / 2)).
(** src/training_data/data_decoder.hpp:165, 196, 202-204 *)
Definition largest_value (grays : list (list F)) : F :=
  let largest := fold_left std_max (concat grays) float0 in if feq largest float0 then float1 else largest.
(** src/training_data/data_decoder.hpp:208-215 *)
Definition shade (largest gray : F) : outcome N :=
  do ascii_index <- to_size (fmul (fdiv gray largest) (of_Z 4));
  vec_at ascii_chars (N.to_nat ascii_index).
(** src/training_data/data_decoder.hpp:155-219 [ImageDecoder::decodeImage] *)
Definition decodeImage (t : FT) : outcome (list (list N)) :=
  do grays <- gray_scales t;
  omapM (omapM (shade (largest_value grays))) grays.
