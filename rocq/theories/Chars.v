(** Bytes as [ascii], C++ [std::string] as [list ascii], and the character classes of
    the "C" locale. *)
From Coq Require Import Ascii String List Bool NArith.
Import ListNotations.

Definition str := list ascii.
(** String literal as a C++ string. *)
Definition lit (s : string) : str := list_ascii_of_string s.

Definition ceq (a b : ascii) : bool := Ascii.eqb a b.

Fixpoint seq_eqb (a b : str) : bool :=
  match a, b with
  | [], [] => true
  | x :: a', y :: b' => ceq x y && seq_eqb a' b'
  | _, _ => false
  end.

(** [std::isspace], [std::isdigit], [std::isalnum], [std::isprint] in the "C" locale
    (used at src/training_data/data_encoder.hpp:31,34, src/util/data_util.hpp:102-119). *)
Definition code (c : ascii) : N := N_of_ascii c.
Definition isspace (c : ascii) : bool :=
  (N.eqb (code c) 32 || (N.leb 9 (code c) && N.leb (code c) 13))%N.
Definition isdigit (c : ascii) : bool := (N.leb 48 (code c) && N.leb (code c) 57)%N.
Definition isupper (c : ascii) : bool := (N.leb 65 (code c) && N.leb (code c) 90)%N.
Definition islower (c : ascii) : bool := (N.leb 97 (code c) && N.leb (code c) 122)%N.
Definition isalnum (c : ascii) : bool := isdigit c || isupper c || islower c.
Definition isprint (c : ascii) : bool := (N.leb 32 (code c) && N.leb (code c) 126)%N.

Definition NL : ascii := ascii_of_N 10.
Definition CR : ascii := ascii_of_N 13.
Definition DQ : ascii := ascii_of_N 34.

Lemma ceq_spec a b : reflect (a = b) (ceq a b).
Proof. apply Ascii.eqb_spec. Qed.
Lemma ceq_refl a : ceq a a = true.
Proof. apply Ascii.eqb_refl. Qed.
Lemma seq_eqb_spec a b : reflect (a = b) (seq_eqb a b).
Proof.
  revert b; induction a as [|x a IH]; intros [|y b]; cbn; try (constructor; congruence).
  destruct (ceq_spec x y) as [->|N]; cbn; [|constructor; congruence].
  destruct (IH b) as [->|N]; constructor; congruence.
Qed.
