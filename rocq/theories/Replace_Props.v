(** C13 - text substitution ([string_replace_all], [u16string_replace_all]). *)
From Coq Require Import Ascii String List Bool.
From Verif Require Import Chars Replace_Model Replace_Spec Replace_Proofs.
Import ListNotations.

(** For every text, non-empty pattern and replacement (over any alphabet) the result is the
    text with exactly the leftmost non-overlapping occurrences replaced. *)
Theorem replace_all_replaces_leftmost :
  forall (A : Type) (eqb : A -> A -> bool), (forall a b, reflect (a = b) (eqb a b)) ->
  forall s pat rep, pat <> [] -> replaced pat rep s (replace_all eqb s pat rep).
Proof. exact (fun A eqb E s pat rep H => replace_all_spec eqb E pat rep s H). Qed.
Print Assumptions replace_all_replaces_leftmost.

(** The specification determines the result. *)
Theorem replaced_deterministic :
  forall (A : Type) (pat rep s r1 r2 : list A), pat <> [] ->
    replaced pat rep s r1 -> replaced pat rep s r2 -> r1 = r2.
Proof. exact (fun A pat rep s r1 r2 H => replaced_fun pat rep s H r1 r2). Qed.
Print Assumptions replaced_deterministic.

(** An empty pattern, or one that does not occur, leaves the text unchanged. *)
Theorem replace_all_unchanged :
  forall (A : Type) (eqb : A -> A -> bool), (forall a b, reflect (a = b) (eqb a b)) ->
  forall s pat rep, pat = [] \/ (forall i, ~ occurs_at pat s i) -> replace_all eqb s pat rep = s.
Proof.
  intros A eqb E s pat rep [->|H]; [exact eq_refl|exact (replace_all_absent eqb E pat rep s H)].
Qed.
Print Assumptions replace_all_unchanged.

Example replace_ex :
  replace_all ceq (lit "aaaa") (lit "aa") (lit "a") = lit "aa" /\
  replace_all ceq (lit "xabab") (lit "ab") (lit "abab") = lit "xabababab" /\ lit "ab" <> [].
Proof. repeat split. discriminate. Qed.
