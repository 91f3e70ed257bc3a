(** Vocabulary for C23-C25. *)
From Coq Require Import List Bool Arith NArith ZArith.
From Verif Require Import Outcome TensorFile_Model TensorFile_Spec DatasetFile_Model.
Import ListNotations.
Open Scope N_scope.

(** Metadata whose fields fit their C++ types. *)
Record fits (m : meta) : Prop := {
  fits_purpose : purpose m < 256;
  fits_mean : mean m < 2 ^ 32; fits_std : standard_deviation m < 2 ^ 32;
  fits_min : min_value m < 2 ^ 32; fits_max : max_value m < 2 ^ 32;
  fits_source : source_column_count m < 2 ^ 64;
  fits_rows : rows m < 2 ^ 64; fits_columns : columns m < 2 ^ 64; fits_channels : channels m < 2 ^ 64;
  fits_labels : N.of_nat (length (ordered_labels m)) < 2 ^ 64;
  fits_label : Forall (fun l => N.of_nat (length l) < 2 ^ 63) (ordered_labels m);
  fits_name : N.of_nat (length (name m)) < 2 ^ 63 }.

(** A tensor of 32-bit values with the shape its column announces. *)
Definition shaped (m : meta) (t : list (list (list N))) : Prop :=
  box (N.to_nat (rows m)) (N.to_nat (columns m)) (N.to_nat (channels m)) t /\ every (fun x => x < 2 ^ 32) t.

Definition row_fits (given expected : list meta) (r : list (list (list (list N))) * list (list (list (list N)))) : Prop :=
  Forall2 shaped given (fst r) /\ Forall2 shaped expected (snd r).

(** Bytes of a row: four per value. *)
Definition bytes_per_row (ms : list meta) : N :=
  fold_right (fun m acc => 4 * (rows m * columns m * channels m) + acc) 0 ms.

(** What a column holds in memory: labels as 8-bit floats with bias 4, images as pixels, anything
    else the very values. *)
Definition in_memory (to_pixel : N -> N) (m : meta) (t : list (list (list N))) : tensor :=
  if purpose m =? 73 then Pixels (map3 to_pixel t)
  else if purpose m =? 76 then Quarter 4 (map3 (store_quarter 4) t)
  else Full t.

Definition zip_with {A B C} (f : A -> B -> C) (l : list A) (r : list B) : list C :=
  map (fun p => f (fst p) (snd p)) (combine l r).
