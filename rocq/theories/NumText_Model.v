(** Model of numbers written as text and read back: src/util/portable_bytes.hpp [asString], and
    [std::stoul], [std::stoull], [std::stof] as used by src/ml/happyml_dsl.hpp.

    A finite [float] is its value, a real number; minus zero is not told from zero.  Of the texts [stof]
    accepts, those with an exponent, in hexadecimal, "inf" and "nan" are not modelled; nor is that it
    also accepts a text whose value is below the smallest normal number but exact. *)
From Coq Require Import Ascii String List Bool NArith ZArith Reals.
From Flocq Require Import Core.
From Verif Require Import Chars Outcome Delimited_Model.
Import ListNotations.
Open Scope char_scope.

Definition digit_char (n : N) : ascii := ascii_of_N (48 + n).
Fixpoint digits (fuel : nat) (n : N) (acc : str) : str :=
  match fuel with
  | O => acc
  | S fuel => let acc := digit_char (n mod 10) :: acc in if (n <? 10)%N then acc else digits fuel (n / 10) acc
  end.
(** src/util/portable_bytes.hpp:62-72 [asString(uint32_t)], [asString(uint64_t)] *)
Definition asString_uint (n : N) : str := digits (S (N.size_nat n)) n [].
(** src/util/portable_bytes.hpp:80-86 [asString(bool)], [asBool] *)
Definition asString_bool (b : bool) : str := if b then lit "true" else lit "false".
Definition asBool (s : str) : bool := seq_eqb s (lit "true").

(** The last [count] digits of a number. *)
Fixpoint last_digits (count : nat) (n : N) : str :=
  match count with
  | O => []
  | S count => digit_char (n / 10 ^ N.of_nat count mod 10) :: last_digits count n
  end.
(** A multiple of 10^-15, with 15 digits after the point. *)
Definition fixed15 (negative : bool) (k : N) : str :=
  (if negative then ["-"] else []) ++ asString_uint (k / 10 ^ 15) ++ "." :: last_digits 15 k.
(** src/util/portable_bytes.hpp:74-78 [asString(double)]: the nearest multiple of 10^-15, ties to even. *)
Definition asString_float (x : R) : str :=
  fixed15 (if Rlt_dec x 0 then true else false) (Z.abs_N (ZnearestE (x * 10 ^ 15))).

(** The digits at the start of a text: their value, their number, and what follows. *)
Fixpoint read_digits (s : str) (value : N) (count : nat) : N * nat * str :=
  match s with
  | c :: t => if isdigit c then read_digits t (value * 10 + (code c - 48)) (S count) else (value, count, s)
  | [] => (value, count, s)
  end.
Definition read_sign (s : str) : bool * str :=
  match s with c :: t => if ceq c "-" then (true, t) else if ceq c "+" then (false, t) else (false, s) | [] => (false, s) end.
Definition two64 : N := 18446744073709551616.
Definition two32 : N := 4294967296.
(** [std::stoull]: white space, a sign, digits; whatever follows is ignored; a minus negates modulo 2^64. *)
Definition stoull (s : str) : outcome N :=
  let (negative, s) := read_sign (lstrip s) in
  let '(value, count, _) := read_digits s 0 0 in
  if Nat.eqb count 0 then Throw
  else if (two64 <=? value)%N then Throw
  else Ok (if negative then ((two64 - value) mod two64)%N else value).
(** [std::stoul] assigned to a [uint32_t]; [unsigned long] has 64 bits. *)
Definition stoul32 (s : str) : outcome N := do v <- stoull s; Ok (v mod two32)%N.

Definition to_float (x : R) : R := round radix2 (FLT_exp (-149) 24) ZnearestE x.
(** [std::stof] *)
Definition stof (s : str) : outcome R :=
  let (negative, s) := read_sign (lstrip s) in
  let '(whole, count, s) := read_digits s 0 0 in
  let '(value, count', digits) := match s with c :: t => if ceq c "." then let '(v, n, _) := read_digits t whole 0 in (v, (count + n)%nat, n) else (whole, count, O) | [] => (whole, count, O) end in
  if Nat.eqb count' 0 then Throw
  else let x := (IZR (Z.of_N value) / 10 ^ digits)%R in
       let y := to_float (if negative then - x else x)%R in
       if Rle_dec (bpow radix2 128) (Rabs y) then Throw
       else if Rlt_dec 0 x then if Rlt_dec (Rabs y) (bpow radix2 (-126)) then Throw else Ok y
       else Ok y.
