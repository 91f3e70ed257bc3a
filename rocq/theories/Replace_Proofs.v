From Coq Require Import List Bool Arith Lia.
From Verif Require Import Replace_Model Replace_Spec.
Import ListNotations.

Section P.
Context {A : Type} (eqb : A -> A -> bool) (eqb_spec : forall a b, reflect (a = b) (eqb a b)).
Notation strip_prefix := (strip_prefix eqb).
Notation find_split := (find_split eqb).
Notation replace_loop := (replace_loop eqb).
Notation replace_all := (replace_all eqb).

Lemma strip_prefix_some pat s r : strip_prefix pat s = Some r <-> s = pat ++ r.
Proof.
  revert s; induction pat as [|p pat IH]; intros s; cbn.
  - split; congruence.
  - destruct s as [|c s]; [split; discriminate|].
    destruct (eqb_spec p c) as [->|N].
    + rewrite IH. split; intro H; [now subst|injection H; auto].
    + split; [discriminate|]. intro H; injection H; congruence.
Qed.

Lemma occurs_0 (pat s : list A) : occurs_at pat s 0 <-> exists b, s = pat ++ b.
Proof.
  split.
  - intros (a & b & E & L). destruct a; [|discriminate]. now exists b.
  - intros (b & E). exists [], b. auto.
Qed.
Lemma occurs_S (pat : list A) c s i : occurs_at pat (c :: s) (S i) <-> occurs_at pat s i.
Proof.
  split.
  - intros (a & b & E & L). destruct a as [|x a]; [discriminate|].
    injection E; intros. exists a, b. auto.
  - intros (a & b & E & L). exists (c :: a), b. cbn. now subst.
Qed.

Lemma find_split_some pat s a b : find_split pat s = Some (a, b) ->
  s = a ++ pat ++ b /\ forall i, i < length a -> ~ occurs_at pat s i.
Proof.
  revert a b; induction s as [|c s IH]; intros a b; cbn [find_split Replace_Model.find_split].
  - destruct (strip_prefix pat []) eqn:E; [|discriminate].
    intro H; injection H; intros; subst. apply strip_prefix_some in E. split; auto. cbn; lia.
  - destruct (strip_prefix pat (c :: s)) eqn:E.
    + intro H; injection H; intros; subst. apply strip_prefix_some in E. split; auto. cbn; lia.
    + destruct (find_split pat s) as [[a' b']|] eqn:F; [|discriminate].
      intro H; injection H; intros; subst.
      destruct (IH a' b eq_refl) as [E1 E2]. split; [cbn; now f_equal|].
      intros [|i] Hi.
      * rewrite occurs_0. intros (r & Hr). apply strip_prefix_some in Hr. congruence.
      * rewrite occurs_S. apply E2. cbn in Hi; lia.
Qed.

Lemma find_split_none pat s : find_split pat s = None -> forall i, ~ occurs_at pat s i.
Proof.
  induction s as [|c s IH]; cbn [find_split Replace_Model.find_split].
  - destruct (strip_prefix pat []) eqn:E; [discriminate|]. intros _ i (a & b & H & L).
    symmetry in H. apply app_eq_nil in H as [-> H].
    rewrite (proj2 (strip_prefix_some pat [] b)) in E by congruence. discriminate.
  - destruct (strip_prefix pat (c :: s)) eqn:E; [discriminate|].
    destruct (find_split pat s) as [[a' b']|] eqn:F; [discriminate|].
    intros _ [|i].
    + rewrite occurs_0. intros (r & Hr). apply strip_prefix_some in Hr. congruence.
    + rewrite occurs_S. now apply IH.
Qed.

Lemma replace_loop_spec fuel pat rep s : pat <> [] -> length s <= fuel ->
  replaced pat rep s (replace_loop fuel pat rep s).
Proof.
  intro Hp. revert s; induction fuel as [|fuel IH]; intros s Hl; cbn.
  - destruct s; [|cbn in Hl; lia]. constructor 1. intros i (a & b & E & _).
    symmetry in E. apply app_eq_nil in E as [_ E]. apply app_eq_nil in E as [E _]. contradiction.
  - destruct s as [|c s].
    + constructor 1. intros i (a & b & E & _).
      symmetry in E. apply app_eq_nil in E as [_ E]. apply app_eq_nil in E as [E _]. contradiction.
    + destruct (find_split pat (c :: s)) as [[a b]|] eqn:F.
      * destruct (find_split_some _ _ _ _ F) as [E1 E2]. rewrite E1 at 1.
        constructor 2; [now rewrite <- E1|]. apply IH.
        assert (L: length (c :: s) = length (a ++ pat ++ b)) by now rewrite E1.
        rewrite !app_length in L. destruct pat; [contradiction|]. cbn in L, Hl. lia.
      * constructor 1. now apply find_split_none.
Qed.

Lemma replace_all_spec pat rep s : pat <> [] -> replaced pat rep s (replace_all s pat rep).
Proof. intro H. unfold replace_all, Replace_Model.replace_all. destruct pat; [contradiction|]. now apply replace_loop_spec. Qed.

Lemma replaced_fun (pat rep s : list A) : pat <> [] -> forall r1 r2, replaced pat rep s r1 -> replaced pat rep s r2 -> r1 = r2.
Proof.
  intros Hp r1 r2 H1; revert r2; induction H1 as [s H|a b b' Ha Hb IH]; intros r2 H2.
  - inversion H2 as [|a b b' Ha Hb]; subst; auto.
    exfalso. apply (H (length a)). exists a, b; auto.
  - inversion H2 as [s H E|a2 b2 b2' Ha2 Hb2 E]; subst.
    + exfalso. apply (H (length a)). exists a, b; auto.
    + assert (L: length a = length a2).
      { destruct (lt_eq_lt_dec (length a) (length a2)) as [[C|C]|C]; auto; exfalso.
        - apply (Ha2 (length a) C). rewrite E. exists a, b; auto.
        - apply (Ha (length a2) C). rewrite <- E. exists a2, b2; auto. }
      assert (a2 = a /\ pat ++ b2 = pat ++ b) as [-> E2].
      { clear - E L. revert a2 L E; induction a; intros [|y a2] L E; try discriminate; cbn in *; auto.
        injection E; intros E' ->. injection L; intros L'. destruct (IHa _ L' E') as [-> ->]. auto. }
      apply app_inv_head in E2. subst b2. now rewrite (IH b2' Hb2).
Qed.

Lemma replace_all_absent pat rep s : (forall i, ~ occurs_at pat s i) -> replace_all s pat rep = s.
Proof.
  destruct pat as [|p pat]; [reflexivity|]. intro H.
  eapply replaced_fun; [|apply replace_all_spec|now constructor 1]; discriminate.
Qed.

(** single-character pattern = per-character substitution *)
Lemma replace_all_char p rep s :
  replace_all s [p] rep = flat_map (fun c => if eqb p c then rep else [c]) s.
Proof.
  eapply (replaced_fun [p] rep s); [discriminate|apply replace_all_spec; discriminate|].
  induction s as [|c s IH].
  - cbn. constructor 1. intros i (a & b & E & _). destruct a; discriminate.
  - cbn [flat_map]. destruct (eqb_spec p c) as [->|N].
    + change (c :: s) with ([] ++ [c] ++ s). change (rep ++ ?x) with ([] ++ rep ++ x).
      constructor 2; auto. intros i Hi; cbn in Hi; lia.
    + set (r := flat_map _ s) in *. clearbody r.
      inversion IH as [s' H|a b b' Ha Hb]; subst.
      * cbn [app]. constructor 1. intros [|i].
        -- rewrite occurs_0. intros (rr & Hr). injection Hr; congruence.
        -- rewrite occurs_S. apply H.
      * change ([c] ++ a ++ rep ++ b') with ((c :: a) ++ rep ++ b').
        change (c :: a ++ [p] ++ b) with ((c :: a) ++ [p] ++ b).
        constructor 2; auto. intros [|i] Hi.
        -- rewrite occurs_0. intros (rr & Hr). injection Hr; congruence.
        -- cbn [app]. rewrite occurs_S. apply Ha. cbn in Hi; lia.
Qed.
End P.
