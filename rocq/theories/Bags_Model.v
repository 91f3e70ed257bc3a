(** Model of the statistics of a tensor (src/util/tensor_stats.hpp).

    Simplifications, for every definition in this file: a [float] is its 32-bit pattern, and a value in a bag
    is the exact number in units of 2^-149 (every [float] is such a multiple); counts are unbounded instead of
    [double] and [unsigned long]; sums, differences and halves of values are exact instead of [float] or
    [double]; printing is left out. *)
From Coq Require Import List Arith Bool ZArith.
From Verif Require Import Outcome Float32_Spec QuarterFloat_Model.
Import ListNotations.
Local Open Scope Z_scope.

(** src/util/tensor_stats.hpp:254-263: an array of 256 pairs of a value and a count, by code; all 0 to start
    with. *)
Notation bags := (Z -> Z * nat).
Definition no_bags : bags := fun _ => (0, O).
Definition codes : list Z := map Z.of_nat (seq 0 256).

(** [isinf] or [isnan] *)
Definition not_finite (f : N) : bool := (f32_exp f =? 255)%N.

(** src/util/tensor_stats.hpp:265-276 *)
Definition addToBag (bias : Z) (bagCounts : bags) (f : N) : bags :=
  let q := floatToQuarter (Z.of_N f) bias in
  let v := f32_units f in
  let '(old_val, count) := bagCounts q in
  let new := if (0 <? v) && (old_val <? v) || (v <? 0) && (v <? old_val) || (v =? 0) then v else old_val in
  fun c => if c =? q then (new, S count) else bagCounts c.
(** src/util/tensor_stats.hpp:278-292, for the bags of one bias. *)
Definition populateBags (bias : Z) (bagCounts : bags) (f : N) : bags :=
  if not_finite f then bagCounts else addToBag bias bagCounts f.
(** The elements one after another. *)
Definition populate (bias : Z) (l : list N) : bags := fold_left (populateBags bias) l no_bags.

(** src/util/tensor_stats.hpp:304-312 (and its copies up to 348, and in 361-405): what a thread has found is
    added, under the lock. *)
Definition merge (shared local : bags) : bags :=
  fun index =>
    let '(val, count) := local index in
    let '(original, n) := shared index in
    (if (val =? 0) || (val <? 0) && (val <? original) || (0 <? val) && (original <? val) then val else original, (n + count)%nat).

(** A tensor as its numbers of rows, columns and channels, and its elements. *)
Record tensor := { rows : nat; cols : nat; chans : nat; at_ : nat -> nat -> nat -> N }.
(** src/util/tensor_stats.hpp:61-67: channels, then rows, then columns. *)
Definition elements (t : tensor) : list N :=
  flat_map (fun k => flat_map (fun r => map (fun c => at_ t r c k) (seq 0 (cols t))) (seq 0 (rows t))) (seq 0 (chans t)).
(** src/util/tensor_stats.hpp:72-101, 294-302, 351-359: what each thread looks at. *)
Definition parts (t : tensor) : list (list N) :=
  if (rows t <=? cols t)%nat then flat_map (fun k => map (fun r => map (fun c => at_ t r c k) (seq 0 (cols t))) (seq 0 (rows t))) (seq 0 (chans t))
  else flat_map (fun k => map (fun c => map (fun r => at_ t r c k) (seq 0 (rows t))) (seq 0 (cols t))) (seq 0 (chans t)).
(** src/util/tensor_stats.hpp:59-104, 408-413: the bags of one bias; [threads] are the parts in the order in which the
    threads take the lock. *)
Definition fill (bias : Z) (t : tensor) (threads : list (list N)) : bags :=
  if Z.of_nat (rows t) * Z.of_nat (cols t) <? 100000000 then populate bias (elements t)
  else fold_left merge (map (populate bias) threads) no_bags.

(** src/util/tensor_stats.hpp:416-429 *)
Definition elementCount (b : bags) : nat := fold_left (fun n c => n + snd (b c))%nat codes O.
Definition minValue (b : bags) : Z := fold_left (fun m c => Z.min m (fst (b c))) codes (fst (b 0)).
Definition maxValue (b : bags) : Z := fold_left (fun m c => Z.max m (fst (b c))) codes (fst (b 0)).

(** src/util/tensor_stats.hpp:250-252, 532-540: the bags that are not empty, sorted by value.  Of bags with the same
    value any may come first, which makes no difference to the values below. *)
Fixpoint insert (x : Z * nat) (l : list (Z * nat)) : list (Z * nat) :=
  match l with
  | [] => [x]
  | y :: l' => if fst x <=? fst y then x :: l else y :: insert x l'
  end.
Definition buildBagFromCounts (b : bags) : list (Z * nat) :=
  fold_right insert [] (filter (fun x => (0 <? snd x)%nat) (map b codes)).

(** src/util/tensor_stats.hpp:515-523: the [while] loop; it adds at most three values, so [fuel] 3 is enough. *)
Fixpoint quarters_of (fuel : nat) (value : Z) (current_element quarter_size next_quarter : nat) (quarterValues : list Z) : list Z * nat :=
  match fuel with
  | O => (quarterValues, next_quarter)
  | S fuel =>
      if (next_quarter <=? current_element)%nat then
        let quarterValues := quarterValues ++ [value] in
        if (length quarterValues =? 4)%nat then (quarterValues, next_quarter)
        else quarters_of fuel value current_element quarter_size (next_quarter + quarter_size) quarterValues
      else (quarterValues, next_quarter)
  end.
(** src/util/tensor_stats.hpp:511-527 *)
Fixpoint quarters_loop (quarter_size next_quarter current_element : nat) (quarterValues : list Z) (l : list (Z * nat)) : list Z :=
  match l with
  | [] => quarterValues
  | (value, count) :: l =>
      let current_element := (current_element + count)%nat in
      let '(quarterValues, next_quarter) := quarters_of 3 value current_element quarter_size next_quarter quarterValues in
      if (length quarterValues =? 4)%nat then quarterValues else quarters_loop quarter_size next_quarter current_element quarterValues l
  end.
(** src/util/tensor_stats.hpp:504-530; [front] and [back] of an empty vector are undefined. *)
Definition calculateQuarters (elementCount : nat) (bagElements : list (Z * nat)) : outcome (list Z) :=
  match bagElements with
  | [] => UB
  | front :: _ =>
      let quarter_size := (elementCount / 4)%nat in
      Ok (quarters_loop quarter_size quarter_size 0 [fst front] bagElements ++ [fst (last bagElements front)])
  end.

(** src/util/tensor_stats.hpp:486-498 *)
Fixpoint eighty_loop (ten_percent fifty_percent ninety_percent current_element : nat) (eightyValues : list Z) (l : list (Z * nat)) : list Z :=
  match l with
  | [] => eightyValues
  | (value, count) :: l =>
      let current_element := (current_element + count)%nat in
      if (length eightyValues =? 3)%nat && (ninety_percent <=? current_element)%nat then eightyValues ++ [value]
      else
        let eightyValues := if (length eightyValues =? 2)%nat && (fifty_percent <=? current_element)%nat then eightyValues ++ [value] else eightyValues in
        let eightyValues := if (length eightyValues =? 1)%nat && (ten_percent <? current_element)%nat then eightyValues ++ [value] else eightyValues in
        eighty_loop ten_percent fifty_percent ninety_percent current_element eightyValues l
  end.
(** src/util/tensor_stats.hpp:470-502; called after [calculateQuarters], so the bags are not empty. *)
Definition calculateEightyPercent (elementCount : nat) (bagElements : list (Z * nat)) : outcome (list Z) :=
  match bagElements with
  | [] => Ok []
  | front :: _ =>
      let ten_percent := (elementCount / 10)%nat in
      let fifty_percent := Nat.min (elementCount / 2) (5 * ten_percent) in
      let ninety_percent := Nat.min (9 * elementCount / 10) (9 * ten_percent) in
      let eightyValues := eighty_loop ten_percent fifty_percent ninety_percent 0 [fst front] bagElements in
      Ok (eightyValues ++ repeat (fst (last bagElements front)) (5 - length eightyValues))
  end.

(** src/util/tensor_stats.hpp:15-17 *)
Inductive fit := For_100 | For_80 | For_50.
(** The members set by [bag], src/util/tensor_stats.hpp:464-468 *)
Record values := { quarterValues : list Z; eightyValues : list Z }.
Definition bag (elementCount : nat) (b : bags) : outcome values :=
  let bagElements := buildBagFromCounts b in
  do q <- calculateQuarters elementCount bagElements;
  do e <- calculateEightyPercent elementCount bagElements;
  Ok {| quarterValues := q; eightyValues := e |}.

(** [vector::at] *)
Definition at_index (l : list Z) (i : nat) : outcome Z := match nth_error l i with Some v => Ok v | None => Throw end.
(** src/util/tensor_stats.hpp:431-462: the values are those of percentages [low] and [high]. *)
Definition range_of (require0 : bool) (l : list Z) (low high : nat) : outcome Z :=
  if (length l =? 5)%nat then
    do h <- at_index l high;
    do b <- at_index l low;
    Ok (if require0 then Z.abs (Z.max 0 h - Z.min 0 b) else Z.abs (h - b))
  else Throw.
Definition range (f : fit) (require0 : bool) (v : values) : outcome Z :=
  match f with
  | For_80 => range_of require0 (eightyValues v) 1 3
  | For_50 => range_of require0 (quarterValues v) 1 3
  | For_100 => range_of require0 (quarterValues v) 0 4
  end.

(** src/types/quarter_float.hpp:20-21 [QUARTER_MAX], [QUARTER_MIN] *)
Definition QUARTER_MAX : Z := 119.
Definition QUARTER_MIN : Z := 247.
Definition quarter_units (q bias : Z) : Z := f32_units (Z.to_N (quarterToFloat q bias)).
(** src/types/quarter_float.hpp:166-170 *)
Definition calculateBiasRange (bias : Z) : Z := Z.abs (quarter_units QUARTER_MAX bias - quarter_units QUARTER_MIN bias).

Section Recommend.
Context (f : fit) (require0 : bool) (bagCounts : Z -> bags).
Let count : nat := elementCount (bagCounts 14).
(** src/util/tensor_stats.hpp:111-140: the first bias whose numbers span the values. *)
Definition spans (bias : Z) : bool :=
  (quarter_units QUARTER_MIN bias <=? minValue (bagCounts 14)) && (maxValue (bagCounts 14) <=? quarter_units QUARTER_MAX bias).
Definition wide_bias : Z := if spans 14 then 14 else if spans 8 then 8 else if spans 4 then 4 else if spans 1 then 1 else -4.
(** src/util/tensor_stats.hpp:542-552 *)
Definition bagAndCheckRangeForBiasGoal (bias wideTargetRange : Z) : outcome bool :=
  if calculateBiasRange bias <? wideTargetRange then Ok false
  else
    do v <- bag count (bagCounts bias);
    do r <- range f require0 v;
    Ok (r <=? calculateBiasRange bias).
(** src/util/tensor_stats.hpp:151-163 *)
Fixpoint first_bias (biases : list Z) (wideTargetRange : Z) : outcome Z :=
  match biases with
  | [] => Ok (-4)
  | bias :: biases =>
      do ok <- bagAndCheckRangeForBiasGoal bias wideTargetRange;
      if ok then Ok bias else first_bias biases wideTargetRange
  end.
(** src/util/tensor_stats.hpp:106-189: the recommended bias, and twice the recommended offset. *)
Definition recommend : outcome (Z * Z) :=
  do v <- bag count (bagCounts wide_bias);
  do wide_target_range <- range f require0 v;
  do recommendedBias <- first_bias [14; 8; 4; 1] wide_target_range;
  do v <- bag count (bagCounts recommendedBias);
  do offset <-
    match f, require0 with
    | For_80, true => do x <- at_index (eightyValues v) 1; Ok (2 * Z.min 0 x + wide_target_range)
    | For_80, false => do x <- at_index (eightyValues v) 2; Ok (2 * x)
    | For_50, true => do x <- at_index (quarterValues v) 1; Ok (2 * Z.min 0 x + wide_target_range)
    | For_50, false => do x <- at_index (quarterValues v) 2; Ok (2 * x)
    | For_100, true => do x <- at_index (eightyValues v) 0; Ok (2 * Z.min 0 x + wide_target_range)
    | For_100, false => do x <- at_index (eightyValues v) 0; Ok (2 * x + wide_target_range)
    end;
  Ok (recommendedBias, offset).
End Recommend.

(** src/util/tensor_stats.hpp:28-189: the constructor. *)
Definition TensorStats (t : tensor) (f : fit) (require0 : bool) (threads : list (list N)) : outcome (Z * Z) :=
  recommend f require0 (fun bias => fill bias t threads).
