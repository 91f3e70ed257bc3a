(** Correlation, convolution and their defining sums. *)
From Coq Require Import Arith Bool.
From Verif Require Import Tensor_Model Tensor_Spec.

(** sum over the kernel of kernel(i,j) * image(r+i, c+j) *)
Definition correlation {A} (o : ops A) (k1 k2 : nat) (kernel image : nat -> nat -> A) (r c : nat) : A :=
  Sum o k1 (fun i => Sum o k2 (fun j => mul o (kernel i j) (image (r + i) (c + j)))).
(** sum over the kernel of kernel(i,j) * image(r-i, c-j), the n x m image being 0 outside *)
Definition convolution {A} (o : ops A) (n m k1 k2 : nat) (kernel image : nat -> nat -> A) (r c : nat) : A :=
  Sum o k1 (fun i => Sum o k2 (fun j =>
    if (i <=? r) && (r - i <? n) && ((j <=? c) && (c - j <? m))
    then mul o (kernel i j) (image (r - i) (c - j)) else zero o)).
(** sum of a(i,j) * b(i,j) over an n x m grid *)
Definition inner {A} (o : ops A) (n m : nat) (a b : nat -> nat -> A) : A :=
  Sum o n (fun i => Sum o m (fun j => mul o (a i j) (b i j))).
