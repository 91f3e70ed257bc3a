(** Model of the reductions of a tensor to a number, an index or a list of indices. *)
From Coq Require Import List Arith Bool Reals.
From Flocq Require Import Core IEEE754.BinarySingleNaN IEEE754.Binary IEEE754.Bits.
From Verif Require Import Outcome Tensor_Model F32_Model.
Import ListNotations.
Local Open Scope nat_scope.

(** The three nested loops all the reductions share: channels, then rows, then columns. *)
Definition scan {A St} (t : tensor A) (f : St -> A -> outcome St) (s : St) : outcome St :=
  loop (chans t) 0 (fun channel s =>
    loop (rows t) 0 (fun row s =>
      loop (cols t) 0 (fun col s => do v <- get t row col channel; f s v) s) s) s.

(** src/types/base_tensors.hpp:221-234.  Exact arithmetic instead of [double]. *)
Definition product {A} (o : ops A) (t : tensor A) : outcome A := scan t (fun result v => Ok (mul o result v)) (one o).
(** src/types/base_tensors.hpp:236-249.  Exact arithmetic instead of [double]. *)
Definition sum {A} (o : ops A) (t : tensor A) : outcome A := scan t (fun result v => Ok (add o result v)) (zero o).

(** ** Comparisons: on [float], NaN and infinities included *)
Notation F := binary32.
Definition infinity_ (negative : bool) : F := B754_infinity 24 128 negative.

(** [std::max(a, b)] is [(a < b) ? b : a], [std::min(a, b)] is [(b < a) ? b : a]. *)
Definition std_max (a b : F) : F := if flt a b then b else a.
Definition std_min (a b : F) : F := if flt b a then b else a.

(** src/types/base_tensors.hpp:266-279 *)
Definition max (t : tensor F) : outcome F := scan t (fun result v => Ok (std_max result v)) (infinity_ true).
(** src/types/base_tensors.hpp:281-294 *)
Definition min (t : tensor F) : outcome F := scan t (fun result v => Ok (std_min result v)) (infinity_ false).
(** src/types/base_tensors.hpp:296-312 *)
Definition range (t : tensor F) : outcome (F * F) :=
  scan t (fun '(lo, hi) v => Ok (std_min lo v, std_max hi v)) (infinity_ false, infinity_ true).

(** The loop of src/types/base_tensors.hpp:335-375: [better] is [>] or [<]; returns the index of
    the last value that was better than everything before. *)
Definition best_index (better : F -> F -> bool) (start : F) (n : nat) (value : nat -> outcome F) : outcome nat :=
  do s <- loop n 0 (fun i '(result, current) =>
                      do v <- value i;
                      Ok (if better v current then (i, v) else (result, current))) (0, start);
  Ok (fst s).
(** src/types/base_tensors.hpp:335-347 *)
Definition maxIndexByCol (t : tensor F) (channel col : nat) : outcome nat :=
  best_index fgt (infinity_ true) (rows t) (fun row => get t row col channel).
(** src/types/base_tensors.hpp:349-361 *)
Definition maxIndexByRow (t : tensor F) (channel row : nat) : outcome nat :=
  best_index fgt (infinity_ true) (cols t) (fun col => get t row col channel).
(** src/types/base_tensors.hpp:363-375 *)
Definition minIndex (t : tensor F) (channel row : nat) : outcome nat :=
  best_index flt (infinity_ false) (cols t) (fun col => get t row col channel).

(** The loop of src/types/base_tensors.hpp:377-409. *)
Definition best_indices (better : F -> F -> bool) (start : F) (n : nat) (value : nat -> outcome F) : outcome (list nat) :=
  do s <- loop n 0 (fun i '(result, current) =>
                      do v <- value i;
                      Ok (if better v current then ([i], v)
                          else if feq v current then (result ++ [i], current)
                          else (result, current))) ([], start);
  Ok (fst s).
(** src/types/base_tensors.hpp:377-392 *)
Definition maxIndices (t : tensor F) (channel row : nat) : outcome (list nat) :=
  best_indices fgt (infinity_ true) (cols t) (fun col => get t row col channel).
(** src/types/base_tensors.hpp:394-409 *)
Definition minIndices (t : tensor F) (channel row : nat) : outcome (list nat) :=
  best_indices flt (infinity_ false) (cols t) (fun col => get t row col channel).

(** src/util/index_value.hpp:9-29 [IndexValue] and its [operator<]. *)
Notation index_value := (nat * F)%type.
Definition before (a b : index_value) : bool := flt (snd a) (snd b).
(** [multiset::insert]: behind the elements that are not greater. *)
Fixpoint insert (x : index_value) (l : list index_value) : list index_value :=
  match l with
  | [] => [x]
  | y :: l' => if before x y then x :: l else y :: insert x l'
  end.
(** The loop of src/types/base_tensors.hpp:324-330 over the multiset backwards. *)
Fixpoint collect (numberOfResults : nat) (l result : list index_value) : list index_value :=
  match l with
  | [] => result
  | x :: l' => let result' := result ++ [x] in
               if length result' =? numberOfResults then result' else collect numberOfResults l' result'
  end.
(** src/types/base_tensors.hpp:314-333.  [operator<] is no strict weak order in the presence of NaN,
    which makes the multiset undefined behaviour. *)
Definition topIndices (t : tensor F) (numberOfResults channel row : nat) : outcome (list index_value) :=
  if 0 <? numberOfResults then
    do sortedValues <- loop (cols t) 0 (fun col s =>
        do v <- get t row col channel;
        if is_nan 24 128 v then UB else Ok (insert (col, v) s)) [];
    Ok (collect numberOfResults (rev sortedValues) [])
  else Ok [].

(** ** Means: exact real arithmetic instead of [double]; [None] is NaN *)
Local Open Scope R_scope.
Notation real := (option R).
Definition Rgt_bool (x y : R) : bool := if Rlt_dec y x then true else false.

(** src/types/base_tensors.hpp:467-495 *)
Definition arithmeticMean (t : tensor R) : outcome R :=
  do s <- scan t (fun '(average, index) v =>
                    let index := index + 1 in
                    Ok (average + (v - average) / index, index)) (0, 0);
  Ok (fst s).
(** src/types/base_tensors.hpp:411-430 *)
Definition standardDeviation (t : tensor R) : outcome R :=
  do average <- arithmeticMean t;
  do s <- scan t (fun '(variance, index) v =>
                    let index := index + 1 in
                    let diff := v - average in
                    Ok (variance + (diff * diff - variance) / index, index)) (0, 0);
  Ok (sqrt (fst s)).
(** src/types/base_tensors.hpp:432-441: 0 / 0 when there are no elements. *)
Definition variance_point (t : tensor R) (point : R) : outcome real :=
  do s <- loop (size t) 0 (fun index sumSquareDiff =>
              do v <- flat t index;
              let diff := v - point in Ok (sumSquareDiff + diff * diff)) 0;
  Ok (if (size t =? 0)%nat then None else Some (s / INR (size t))).
(** src/types/base_tensors.hpp:443-446 *)
Definition variance (t : tensor R) : outcome real := do mean <- arithmeticMean t; variance_point t mean.
(** src/types/base_tensors.hpp:251-264 *)
Definition max_abs (t : tensor R) : outcome R :=
  scan t (fun result v => Ok (if Rgt_bool (Rabs v) result then Rabs v else result)) 0.
(** src/types/base_tensors.hpp:449-465: with [max_abs] zero every quotient is 0 / 0. *)
Definition euclidean_norm (t : tensor R) : outcome real :=
  do max_abs_val <- max_abs t;
  do s <- scan t (fun sum v =>
                    Ok (match sum with
                        | None => None
                        | Some sum => if Req_EM_T max_abs_val 0 then None
                                      else let val := v / max_abs_val in Some (sum + val * val)
                        end)) (Some 0);
  Ok (match s with None => None | Some s => Some (max_abs_val * sqrt s) end).
(** src/types/base_tensors.hpp:552-571: NaN as soon as an element is not positive, and 0 / 0 when
    there are no elements. *)
Definition geometricMean (t : tensor R) : outcome real :=
  do s <- scan t (fun s v =>
                    Ok (match s with
                        | None => None
                        | Some (sum, index) => if Rle_dec v 0 then None else Some (sum + ln v, index + 1)
                        end)) (Some (0, 0));
  Ok (match s with
      | None => None
      | Some (sum, index) => if Req_EM_T index 0 then None else Some (exp (sum / index))
      end).
