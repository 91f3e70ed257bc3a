(** Specification vocabulary for byte order: the big-endian positional notation. *)
From Coq Require Import NArith List.
Import ListNotations.
Open Scope N_scope.

(** Value of a byte string read as a base-256 number, most significant digit first. *)
Definition big_endian_value (bs : list N) : N :=
  fold_left (fun acc b => acc * 256 + b) bs 0.

Definition all_bytes (bs : list N) : Prop := Forall (fun b => b < 256) bs.
