(** C38: quoted strings in scripts. *)
From Coq Require Import Ascii String List Bool Arith NArith Lia.
From Verif Require Import Chars Outcome Lexer_Model Lexer_Spec Lexer_Proofs Literal_Model.
Import ListNotations.

(** [stands_for q b t]: the text between two quotes [q] denotes [t]: a backslash before [q] is dropped. *)
Inductive stands_for (q : ascii) : str -> str -> Prop :=
| stands_nil : stands_for q [] []
| stands_escape b t : stands_for q b t -> stands_for q (ascii_of_N 92 :: q :: b) (q :: t)
| stands_char c b t : c <> q -> (c = ascii_of_N 92 -> hd_error b <> Some q) -> stands_for q b t -> stands_for q (c :: b) (c :: t).

Lemma unescape_stands q b : q <> BSL -> string_body q b -> stands_for q b (unescape_loop q b).
Proof.
  intros Hq H. induction H as [|b H IH|c b Hc Hb H IH].
  - constructor.
  - change (ascii_of_N 92) with BSL. cbn [unescape_loop]. rewrite !ceq_refl. apply stands_escape. exact IH.
  - cbn [unescape_loop]. destruct (ceq_spec c BSL) as [->|N].
    + destruct (Hb eq_refl) as [H1 H2]. destruct b as [|d b]; [congruence|].
      destruct (ceq_spec d q) as [->|Nd]; [cbn in H2; congruence|]. apply stands_char; [exact Hc|auto|exact IH].
    + apply stands_char; [exact Hc|intro; contradiction|exact IH].
Qed.

(** C38: a string token denotes the text between its quotes with every escaped quote replaced by the quote. *)
Theorem string_literal_value :
  forall q b, q = DQ \/ q = ascii_of_N 39 -> string_body q b ->
    exists t, unescapeString (q :: b ++ [q]) = Ok t /\ stands_for q b t.
Proof.
  intros q b Hq H. exists (unescape_loop q b). unfold unescapeString. rewrite removelast_last. split; [reflexivity|].
  apply unescape_stands; [|exact H]. destruct Hq as [->| ->]; discriminate.
Qed.
Print Assumptions string_literal_value.

(** C38: what a literal denotes is unique. *)
Theorem stands_for_unique :
  forall q b t, q <> ascii_of_N 92 -> stands_for q b t -> forall t', stands_for q b t' -> t' = t.
Proof.
  intros q b t Hq H. induction H as [|b t H IH|c b t Hc Hb H IH]; intros t' H'.
  - inversion H'. reflexivity.
  - inversion H' as [|b' t2 H2|c b' t2 Hc Hb H2]; subst; [f_equal; auto|]. exfalso. apply (Hb eq_refl). reflexivity.
  - inversion H' as [|b' t2 H2|c' b' t2 Hc' Hb' H2]; subst.
    + exfalso. apply (Hb eq_refl). reflexivity.
    + f_equal. auto.
Qed.
Print Assumptions stands_for_unique.

Definition escape (q : ascii) (t : str) : str := flat_map (fun c => if ceq c q then [BSL; q] else [c]) t.

Lemma escape_body q t : q <> BSL -> (t = [] \/ last t q <> BSL) -> string_body q (escape q t).
Proof.
  intros Hq. induction t as [|c t IH]; intro Hl; [constructor|]. cbn [escape flat_map].
  assert (Ht : t = [] \/ last t q <> BSL).
  { destruct t as [|d t]; [now left|right]. destruct Hl as [Hl|Hl]; [discriminate|exact Hl]. }
  destruct (ceq_spec c q) as [->|N]; cbn [app].
  - apply body_escape. apply IH, Ht.
  - apply body_char; [exact N| |apply IH, Ht]. intros ->. destruct t as [|d t].
    + destruct Hl as [Hl|Hl]; [discriminate|]. cbn in Hl. exfalso. apply Hl. reflexivity.
    + cbn [flat_map]. destruct (ceq_spec d q) as [->|Nd]; cbn [app hd_error]; split; try discriminate.
      * change (ascii_of_N 92) with BSL in N. intro E. injection E as E. congruence.
      * intro E. injection E as E. congruence.
Qed.

Lemma unescape_escape q t : q <> BSL -> (t = [] \/ last t q <> BSL) -> unescape_loop q (escape q t) = t.
Proof.
  intros Hq. induction t as [|c t IH]; intro Hl; [reflexivity|]. cbn [escape flat_map].
  assert (Ht : t = [] \/ last t q <> BSL).
  { destruct t as [|d t]; [now left|right]. destruct Hl as [Hl|Hl]; [discriminate|exact Hl]. }
  specialize (IH Ht). unfold escape in IH.
  destruct (ceq_spec c q) as [->|N]; cbn [app unescape_loop].
  - rewrite !ceq_refl. now rewrite IH.
  - destruct (ceq_spec c BSL) as [->|]; [|now rewrite IH].
    destruct t as [|d t]; [reflexivity|]. cbn [flat_map] in *.
    destruct (ceq_spec d q) as [->|Nd]; cbn [app] in *.
    + destruct (ceq_spec BSL q); [congruence|]. now rewrite IH.
    + destruct (ceq_spec d q); [contradiction|]. now rewrite IH.
Qed.

(** C38: exactly the texts that do not end with a backslash can be written as a string (with either
    quote). *)
Theorem string_literal_texts :
  forall q t, q = DQ \/ q = ascii_of_N 39 ->
    ((exists s b, s = q :: b ++ [q] /\ string_body q b /\ unescapeString s = Ok t) <-> (t = [] \/ last t q <> ascii_of_N 92)).
Proof.
  intros q t Hq. assert (Nq : q <> BSL) by (destruct Hq as [->| ->]; discriminate). split.
  - intros (s & b & -> & Hb & E). cbn [unescapeString] in E. rewrite removelast_last in E. injection E as <-.
    change (ascii_of_N 92) with BSL.
    induction Hb as [|b H IH|c b Hc Hbs H IH].
    + now left.
    + right. change (ascii_of_N 92) with BSL. cbn [unescape_loop]. rewrite !ceq_refl.
      destruct (unescape_loop q b) as [|x l] eqn:E; [exact Nq|]. destruct IH as [IH|IH]; [discriminate|exact IH].
    + right. cbn [unescape_loop]. destruct (ceq_spec c BSL) as [->|N].
      * destruct (Hbs eq_refl) as [H1 H2]. destruct b as [|d b]; [congruence|]. destruct (ceq_spec d q) as [->|Nd]; [cbn in H2; congruence|].
        destruct (unescape_loop q (d :: b)) as [|x l] eqn:E.
        -- exfalso. cbn [unescape_loop] in E. destruct (ceq d BSL); [destruct b as [|e b]; [discriminate|destruct (ceq e q); discriminate]|discriminate].
        -- destruct IH as [IH|IH]; [discriminate|exact IH].
      * destruct (unescape_loop q b) as [|x l]; [cbn; exact N|]. destruct IH as [IH|IH]; [discriminate|exact IH].
  - intro H. exists (q :: escape q t ++ [q]), (escape q t). split; [reflexivity|]. split; [apply escape_body; assumption|].
    unfold unescapeString. rewrite removelast_last. now rewrite unescape_escape.
Qed.
Print Assumptions string_literal_texts.

Example string_literal_ex :
  unescapeString [DQ; "a"%char; BSL; DQ; BSL; "n"%char; DQ] = Ok ["a"%char; DQ; BSL; "n"%char] /\
  string_body DQ ["a"%char; BSL; DQ; BSL; "n"%char].
Proof.
  split; [reflexivity|]. apply body_char; [discriminate|discriminate|]. apply body_escape.
  apply body_char; [discriminate|split; discriminate|]. apply body_char; [discriminate|discriminate|]. constructor.
Qed.
