(** Model of matrix inversion and matrix division. *)
From Coq Require Import List Arith Bool.
From Verif Require Import Outcome Tensor_Model.
Import ListNotations.

Section Inverse.
Context {A : Type} (o : ops A).
Notation T := (tensor A).

(** [vector<vector<float>> mat(n, vector<float>(n * 2))]: all loops stay inside [0,n) x [0,2n), so
    the matrix is a function of row and column. *)
Notation mat := (nat -> nat -> A).

(** src/types/tensor_views/inverse_tensor_view.hpp:22-27: [A|I], [a i j] being the elements read. *)
Definition augmented (n : nat) (a : mat) : mat :=
  fun i j => if j <? n then a i j else if i =? j - n then one o else zero o.

(** src/types/tensor_views/inverse_tensor_view.hpp:31-43: pivot search and row swap. *)
Definition pivot_row (n i : nat) (m : mat) : outcome mat :=
  if eqb o (m i i) (zero o)
  then match find (fun j => negb (eqb o (m j i) (zero o))) (seq (i + 1) (n - (i + 1))) with
       | None => Throw
       | Some row_to_swap => Ok (fun r c => if r =? i then m row_to_swap c
                                            else if r =? row_to_swap then m i c else m r c)
       end
  else Ok m.

(** src/types/tensor_views/inverse_tensor_view.hpp:45-48 *)
Definition scale_row (i : nat) (m : mat) : mat :=
  fun r c => if (r =? i) && (i <=? c) then div o (m i c) (m i i) else m r c.

(** src/types/tensor_views/inverse_tensor_view.hpp:49-56: the rows are treated one after the other;
    row i is left alone and the factor is taken before row j changes, so all rows at once is the same. *)
Definition eliminate (n i : nat) (m : mat) : mat :=
  fun r c => if (r <? n) && negb (r =? i) then sub o (m r c) (mul o (m r i) (m i c)) else m r c.

(** src/types/tensor_views/inverse_tensor_view.hpp:30-57 *)
Definition gauss_jordan (n : nat) (m : mat) : outcome mat :=
  loop n 0 (fun i m => do m' <- pivot_row n i m; Ok (eliminate n i (scale_row i m'))) m.

(** src/types/tensor_views/inverse_tensor_view.hpp:14-69 [inverse_tensor] and the view over it
    (71-75).  Reading the elements may throw. *)
Definition inverse (t : T) : outcome T :=
  let n := rows t in
  do result <- omapM (fun channel =>
      do a <- omapM (fun i => omapM (fun j => get t i j channel) (seq 0 n)) (seq 0 n);
      do m <- gauss_jordan n (augmented n (fun i j => nth j (nth i a []) (zero o)));
      Ok (map (fun i => map (fun j => m i (j + n)) (seq 0 n)) (seq 0 n))) (seq 0 (chans t));
  full o result.

(** src/types/tensor_views/matrix_divide_tensor_view.hpp:16-55 *)
Definition matrix_divide (left right : T) : outcome T :=
  do inv <- inverse right;
  if negb (rows left =? rows inv) || negb (cols left =? cols inv) then Throw
  else if negb (chans left =? chans inv) then Throw
  else Ok {| rows := rows left; cols := cols inv; chans := chans left;
             get := fun row column channel =>
               loop (cols left) 0 (fun col val => do x <- get left row col channel;
                                                  do y <- get inv row col channel;
                                                  Ok (add o val (mul o x y))) (zero o) |}.
End Inverse.
