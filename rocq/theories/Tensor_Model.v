(** Model of tensors and of the views laid over them.

    Simplifications, for every definition in this file: sizes and offsets are unbounded naturals
    (products and sums of sizes are assumed to fit 64 bits), except that a subtraction below zero
    wraps around 2^64 as in the code; a [shared_ptr] to a tensor is the tensor itself (all
    [getValue] functions are pure).  The arithmetic is a parameter. *)
From Coq Require Import List Arith Bool.
From Verif Require Import Outcome.
Import ListNotations.

(** The [float] operations the views use. *)
Record ops (A : Type) := { zero : A; one : A; add : A -> A -> A; sub : A -> A -> A;
                           mul : A -> A -> A; div : A -> A -> A;
                           eqb : A -> A -> bool; gtb : A -> A -> bool }.
Arguments zero {A}. Arguments one {A}. Arguments add {A}. Arguments sub {A}.
Arguments mul {A}. Arguments div {A}. Arguments eqb {A}. Arguments gtb {A}.

(** src/types/base_tensors.hpp:41-60, 196 [BaseTensor]: [rowCount], [columnCount], [channelCount]
    and [getValue(row, column, channel)]. *)
Record tensor (A : Type) := { rows : nat; cols : nat; chans : nat;
                              get : nat -> nat -> nat -> outcome A }.
Arguments rows {A}. Arguments cols {A}. Arguments chans {A}. Arguments get {A}.

(** [for (i = 0; i < n; i++) s = body(i, s)], starting at [i]. *)
Fixpoint loop {St} (n i : nat) (body : nat -> St -> outcome St) (s : St) : outcome St :=
  match n with
  | 0 => Ok s
  | S n' => do s' <- body i s; loop n' (S i) body s'
  end.

(** [size_t] subtraction: wraps around 2^64. *)
Definition wsub (a b : nat) : nat := if b <=? a then a - b else 2 ^ 64 - (b - a).

Section Views.
Context {A : Type} (o : ops A).
Notation T := (tensor A).

(** src/types/base_tensors.hpp:188-194 *)
Definition size (t : T) : nat := rows t * cols t * chans t.
Definition elementsPerChannel (t : T) : nat := rows t * cols t.

(** src/types/base_tensors.hpp:202-209: the channel argument is not used. *)
Definition getRowValues (t : T) (row channel : nat) : outcome (list A) :=
  omapM (fun col => get t row col 0) (seq 0 (cols t)).

(** src/types/base_tensors.hpp:211-219 [getValue(position_offset)].  Division by zero is undefined. *)
Definition flat (t : T) (position_offset : nat) : outcome A :=
  let matrix_size := cols t * rows t in
  if matrix_size =? 0 then UB
  else let matrix_elements := position_offset mod matrix_size in
       get t (matrix_elements / cols t) (matrix_elements mod cols t) (position_offset / matrix_size).

(** src/types/tensor_impls/full_tensor.hpp:91-125 [FullTensor(vector<vector<vector<float>>>)] and
    its [getValue] / [setVal], which use [at] and so throw out of range; the first channel and
    first row give the shape ([values[0][0]] of an empty vector is undefined), later rows that are
    too long throw, missing elements stay 0. *)
Definition full (values : list (list (list A))) : outcome T :=
  match values with
  | (row0 :: rows0) :: _ =>
      let r := S (length rows0) in
      let c := length row0 in
      if forallb (fun m => (length m <=? r) && forallb (fun row => length row <=? c) m) values
      then Ok {| rows := r; cols := c; chans := length values;
                 get := fun i j k =>
                   if (i <? r) && (j <? c) && (k <? length values)
                   then Ok (nth j (nth i (nth k values []) []) (zero o)) else Throw |}
      else Throw
  | _ => UB
  end.

(** src/types/tensor_impls/full_tensor.hpp:71-88 [FullTensor(original)]: every element is read
    once (channel, row, column) and stored. *)
Definition materialize (t : T) : outcome T :=
  do data <- omapM (fun k => omapM (fun i => omapM (fun j => get t i j k) (seq 0 (cols t)))
                                   (seq 0 (rows t))) (seq 0 (chans t));
  Ok {| rows := rows t; cols := cols t; chans := chans t;
        get := fun i j k => match nth_error data k with
                            | Some m => match nth_error m i with
                                        | Some r => match nth_error r j with
                                                    | Some v => Ok v
                                                    | None => Throw end
                                        | None => Throw end
                            | None => Throw end |}.

(** src/types/tensor_impls/uniform_tensor.hpp:11-56 *)
Definition uniform (r c k : nat) (v : A) : T :=
  {| rows := r; cols := c; chans := k; get := fun _ _ _ => Ok v |}.

(** src/types/tensor_views/transpose_tensor_view.hpp:12-44 *)
Definition transpose (t : T) : T :=
  {| rows := cols t; cols := rows t; chans := chans t; get := fun r c k => get t c r k |}.

(** src/types/tensor_views/rotate_180_tensor_view.hpp:12-32 *)
Definition rotate180 (t : T) : T :=
  {| rows := rows t; cols := cols t; chans := chans t;
     get := fun r c k => get t (wsub (wsub (rows t) 1) r) (wsub (wsub (cols t) 1) c) k |}.

(** src/types/tensor_views/channel_to_tensor_view.hpp:15-42: the offset is not checked. *)
Definition channel_to (t : T) (channel_offset : nat) : T :=
  {| rows := rows t; cols := cols t; chans := 1;
     get := fun r c k => if k =? 0 then get t r c (k + channel_offset) else Ok (zero o) |}.

(** src/types/tensor_views/column_flatten_tensor_view.hpp:16-55 *)
Definition column_flatten (t : T) : T :=
  {| rows := size t; cols := 1; chans := 1;
     get := fun r c k => if (c =? 0) && (k =? 0) then flat t r else Throw |}.

(** src/types/tensor_views/row_flatten_tensor_view.hpp:15-52 *)
Definition row_flatten (t : T) : T :=
  {| rows := 1; cols := size t; chans := 1;
     get := fun r c k => if (r =? 0) && (k =? 0) then flat t c else Throw |}.

(** src/types/tensor_views/reshape_tensor_view.hpp:53-56 *)
Definition reshaped (t : T) (r c : nat) : T :=
  {| rows := r; cols := c; chans := chans t;
     get := fun row column channel => flat t ((row * c + column) + channel * (r * c)) |}.
(** src/types/tensor_views/reshape_tensor_view.hpp:30-38, 45-56 (rows and columns given) *)
Definition reshape (t : T) (r c : nat) : outcome T :=
  if elementsPerChannel t =? r * c then Ok (reshaped t r c) else Throw.
(** src/types/tensor_views/reshape_tensor_view.hpp:17-28 (channels given as well) *)
Definition reshape3 (t : T) (r c k : nat) : outcome T :=
  if k =? chans t then reshape t r c else Throw.

(** src/types/tensor_views/concat_wide_tensor_view.h:12-48 and base_tensors.hpp:724-726 (the
    channel count of a binary view is the left one): channel counts are not compared. *)
Definition concat_wide (a b : T) : outcome T :=
  if rows a =? rows b
  then Ok {| rows := rows a; cols := cols a + cols b; chans := chans a;
             get := fun r c k => if c <? cols a then get a r c k else get b r (c - cols a) k |}
  else Throw.

(** src/types/tensor_views/window_tensor_view.hpp:13-41 *)
Definition window (t : T) (start_column end_column : nat) : outcome T :=
  if (end_column <=? start_column) || (cols t <? end_column) then Throw
  else Ok {| rows := rows t; cols := end_column - start_column; chans := chans t;
             get := fun r c k => if end_column - start_column <=? c then Throw
                                 else get t r (c + start_column) k |}.

(** src/types/tensor_views/zero_pad_tensor_view.hpp:15-57 *)
Definition zero_pad (t : T) (top bottom left right : nat) : T :=
  {| rows := rows t + (bottom + top); cols := cols t + (right + left); chans := chans t;
     get := fun r c k =>
       if (r <? top) || (rows t <=? wsub r top) || (c <? left) || (cols t <=? wsub c left)
       then Ok (zero o) else get t (wsub r top) (wsub c left) k |}.

(** src/types/tensor_views/diagonal_tensor_view.hpp:32-66 *)
Definition diagonal (t : T) : T :=
  {| rows := rows t * cols t; cols := rows t * cols t; chans := chans t;
     get := fun r c k => if (r =? c) && (r <? rows t) && (c <? cols t) && (k <? chans t)
                         then get t r c k else Ok (zero o) |}.

(** src/types/tensor_views/sum_to_channel_tensor_view.hpp:15-48 *)
Definition sum_to_channel (t : T) (data_channel_index number_of_channels : nat) : T :=
  {| rows := rows t; cols := cols t; chans := number_of_channels;
     get := fun r c k => if k =? data_channel_index
       then loop (chans t) 0 (fun next s => do v <- get t r c next; Ok (add o s v)) (zero o)
       else Ok (zero o) |}.
(** src/types/tensor_views/sum_channels_tensor_view.hpp:13-16 *)
Definition sum_channels (t : T) : T := sum_to_channel t 0 1.

(** The shape test of the element by element binary views. *)
Definition same_shape (a b : T) : bool :=
  (chans a =? chans b) && (rows a =? rows b) && (cols a =? cols b).
Definition pointwise (f : A -> A -> A) (a b : T) : outcome T :=
  if same_shape a b
  then Ok {| rows := rows a; cols := cols a; chans := chans a;
             get := fun r c k => do x <- get a r c k; do y <- get b r c k; Ok (f x y) |}
  else Throw.
(** src/types/tensor_views/add_tensor_view.hpp:14-47 *)
Definition add_view := pointwise (add o).
(** src/types/tensor_views/subtract_tensor_view.hpp:15-48 *)
Definition subtract_view := pointwise (sub o).
(** src/types/tensor_views/element_wise_multiply_tensor_view.hpp:15-59 *)
Definition multiply_view := pointwise (mul o).
(** src/types/tensor_views/element_wise_divide_tensor_view.hpp:15-63; [epsilon] is [1e-8f]. *)
Definition divide_view (epsilon : A) :=
  pointwise (fun x y => div o x (if eqb o y (zero o) then epsilon else y)).

(** src/types/tensor_views/scalar_multiply_tensor_view.hpp:14-42 *)
Definition scalar_multiply (t : T) (scale : A) : T :=
  {| rows := rows t; cols := cols t; chans := chans t;
     get := fun r c k => do v <- get t r c k; Ok (mul o scale v) |}.

(** src/types/tensor_views/matrix_multiply_tensor_view.hpp:15-58 *)
Definition matrix_multiply (a b : T) : outcome T :=
  if negb (cols a =? rows b) then Throw
  else if negb (chans a =? chans b) then Throw
  else Ok {| rows := rows a; cols := cols b; chans := chans a;
             get := fun r c k =>
               loop (cols a) 0 (fun i val => do x <- get a r i k; do y <- get b i c k;
                                             Ok (add o val (mul o x y))) (zero o) |}.

(** src/types/tensor_views/dot_product_tensor_view.hpp:15-56 *)
Definition dot_product (a b : T) : outcome T :=
  if negb (rows a =? 1) || negb (rows b =? 1) || negb (chans a =? 1) || negb (chans b =? 1) then Throw
  else if negb (cols a =? cols b) then Throw
  else Ok {| rows := 1; cols := 1; chans := 1;
             get := fun _ _ _ =>
               loop (cols a) 0 (fun i val => do x <- get a 0 i 0; do y <- get b 0 i 0;
                                             Ok (add o val (mul o x y))) (zero o) |}.

(** src/types/tensor_views/outer_product_tensor_view.hpp:12-37 *)
Definition outer_product (a b : T) : T :=
  {| rows := rows a; cols := cols b; chans := chans a;
     get := fun r c k => do x <- get a r 0 k; do y <- get b 0 c k; Ok (mul o x y) |}.

(** src/types/base_tensors.hpp:733-741 [BaseTensorTrinaryOperatorView]: the children kept for the
    three constructor arguments. *)
Definition trinary (t1 t2 t3 : T) : T * T * T := (t1, t2, t2).
(** src/types/tensor_views/masked_select_tensor_view.hpp:10-49 *)
Definition masked_select (mask above below : T) (discriminator : A) : T :=
  let '(l, m, r) := trinary mask above below in
  {| rows := rows l; cols := cols l; chans := chans l;
     get := fun i j k => do v <- get l i j k;
                         if gtb o v discriminator then get m i j k else get r i j k |}.

(** src/types/tensor_views/valid_2d_cross_correlation_tensor_view.hpp:12-60.  The shape
    [rows - kernel rows + 1] is computed modulo 2^64, which is [wsub (rows + 1) kernel_rows]. *)
Definition valid_correlation (t kernel : T) : T :=
  {| rows := wsub (rows t + 1) (rows kernel); cols := wsub (cols t + 1) (cols kernel); chans := chans t;
     get := fun r c k =>
       loop (rows kernel) 0 (fun kr result =>
         loop (cols kernel) 0 (fun kc result =>
           do x <- get kernel kr kc k;
           do y <- get t (r + kr) (c + kc) k;
           Ok (add o result (mul o x y))) result) (zero o) |}.

(** src/types/tensor_views/full_2d_cross_correlation_tensor_view.hpp:28-35: [(n > 1) *
    (size_t) std::round(n / 2.0)]; [round] takes halves away from zero. *)
Definition full_padding (n : nat) : nat := if 1 <? n then (n + 1) / 2 else 0.
(** src/types/tensor_views/full_2d_cross_correlation_tensor_view.hpp:23-37 *)
Definition full_correlation (t kernel : T) : T :=
  let pr := full_padding (rows kernel) in
  let pc := full_padding (cols kernel) in
  valid_correlation (zero_pad t pr pr pc pc) kernel.
(** src/types/tensor_views/full_2d_convolve_tensor_view.hpp:20-25 *)
Definition full_convolve (t kernel : T) : T := full_correlation t (rotate180 kernel).
End Views.
