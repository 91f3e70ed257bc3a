(** Proofs about the search of a label task. *)
From Coq Require Import List Arith Bool QArith Lqa Lia Permutation Sorted.
From Verif Require Import Outcome TaskSearch_Model TaskSearch_Spec.
Import ListNotations.
Local Open Scope Q_scope.

Lemma Qle_bool_false : forall a b, Qle_bool a b = false <-> b < a.
Proof.
  intros a b. split; intros H.
  - apply Qnot_le_lt. intros L. apply Qle_bool_iff in L. congruence.
  - destruct (Qle_bool a b) eqn:E; [|reflexivity]. apply Qle_bool_iff in E. lra.
Qed.
Lemma Qeq_bool_false : forall a b, Qeq_bool a b = false <-> ~ a == b.
Proof. intros a b. split; intros H. - intros E. apply Qeq_bool_iff in E. congruence. - destruct (Qeq_bool a b) eqn:E; [|reflexivity]. apply Qeq_bool_iff in E. contradiction. Qed.
Lemma same_iff : forall a b, same a b = true <-> fst a == fst b /\ snd a == snd b.
Proof. intros a b. unfold same. rewrite andb_true_iff, !Qeq_bool_iff. reflexivity. Qed.
Lemma same_refl : forall a, same a a = true.
Proof. intros a. apply same_iff. split; reflexivity. Qed.

(** The order as a proposition, for accuracies that are numbers. *)
Definition below (a b : option Q) : Prop := match a, b with Some a, Some b => a < b | Some _, None => True | None, _ => False end.
Lemma less_loss_iff : forall a b, less_loss a b = true <-> below a b.
Proof. intros [a|] [b|]; cbn; try (split; [discriminate|contradiction]); try tauto. rewrite negb_true_iff. apply Qle_bool_false. Qed.
Lemma better_iff : forall x y a b, accuracy x = Some a -> accuracy y = Some b -> better x y = true <-> b < a \/ a == b /\ below (final_test_loss x) (final_test_loss y).
Proof.
  intros x y a b Ha Hb. unfold better. rewrite Ha, Hb. cbn [above equal]. rewrite orb_true_iff, andb_true_iff, negb_true_iff, Qle_bool_false, Qeq_bool_iff, less_loss_iff. reflexivity.
Qed.
Lemma better_false : forall x y a b, accuracy x = Some a -> accuracy y = Some b -> better x y = false <-> a <= b /\ (a == b -> at_most (final_test_loss y) (final_test_loss x)).
Proof.
  intros x y a b Ha Hb. rewrite <- not_true_iff_false, (better_iff x y a b Ha Hb). destruct (final_test_loss x) as [u|], (final_test_loss y) as [v|]; cbn [below at_most]; split; intros H.
  - split; [|intros E]; apply Qnot_lt_le; intros L; apply H; [left|right]; auto.
  - intros [L|[E L]]; destruct H as [H1 H2]; [lra|]. specialize (H2 E). lra.
  - split; [|intros E]. + apply Qnot_lt_le. intros L. apply H. now left. + destruct H. right. auto.
  - intros [L|[E L]]; destruct H as [H1 H2]; [lra|]. exact (H2 E).
  - split; [|auto]. apply Qnot_lt_le. intros L. apply H. now left.
  - intros [L|[E []]]. lra.
  - split; [|auto]. apply Qnot_lt_le. intros L. apply H. now left.
  - intros [L|[E []]]. lra.
Qed.
Lemma below_trans : forall a b c, below a b -> below b c -> below a c.
Proof. intros [a|] [b|] [c|]; cbn; auto; try contradiction. apply Qlt_trans. Qed.
Lemma at_most_trans : forall a b c, at_most a b -> at_most b c -> at_most a c.
Proof. intros [a|] [b|] [c|]; cbn; auto; try contradiction. apply Qle_trans. Qed.
Lemma at_most_refl : forall a, at_most a a.
Proof. intros [a|]; cbn; auto. apply Qle_refl. Qed.

Lemma sortable_numbers : forall l, Forall (fun r => accuracy r <> None) l -> sortable l = true.
Proof.
  intros l H. rewrite Forall_forall in H.
  assert (N : forall r, In r l -> exists a, accuracy r = Some a). { intros r Hr. specialize (H r Hr). destruct (accuracy r) as [a|]; [eauto|contradiction]. }
  unfold sortable. apply forallb_forall. intros x Hx. destruct (N x Hx) as [a Ha]. apply andb_true_iff. split.
  { unfold tied. assert (better x x = false) as ->; [|reflexivity]. apply (better_false x x a a Ha Ha). split; [apply Qle_refl|]. intros _. apply at_most_refl. }
  apply forallb_forall. intros y Hy. destruct (N y Hy) as [b Hb]. apply forallb_forall. intros z Hz. destruct (N z Hz) as [c Hc].
  apply andb_true_iff. split.
  - apply implb_true_iff. rewrite andb_true_iff, (better_iff x y a b Ha Hb), (better_iff y z b c Hb Hc), (better_iff x z a c Ha Hc).
    intros [[L1|[E1 L1]] [L2|[E2 L2]]]; [left; lra|left; lra|left; lra|]. right. split; [lra|]. eapply below_trans; eauto.
  - apply implb_true_iff. unfold tied. rewrite !andb_true_iff, !negb_true_iff.
    rewrite (better_false x y a b Ha Hb), (better_false y x b a Hb Ha), (better_false y z b c Hb Hc), (better_false z y c b Hc Hb), (better_false x z a c Ha Hc), (better_false z x c a Hc Ha).
    intros [[[A1 A2] [B1 B2]] [[C1 C2] [D1 D2]]]. assert (E1 : a == b) by lra. assert (E2 : b == c) by lra. assert (E3 : b == a) by lra. assert (E4 : c == b) by lra.
    split; (split; [lra|]); intros _; eapply at_most_trans; eauto.
Qed.

Section Search.
Context (train : nat -> bool -> combination -> fate) (sort : list result -> list result) (recordCount : N).

(** The attempts of a round that finds nothing, and of one that finds something. *)
Lemma attempts_all : never_accurate train -> forall whole l k done, exists rs,
  attempts train whole k done l = Ok ((k + length l)%nat, done ++ rs, false) /\ map its rs = l /\ Forall (fun r => accuracy r <> None) rs /\
  forall i p, nth_error l i = Some p -> exists a loss, train (S k + i)%nat whole p = Trained (Some a) loss /\ nth_error rs i = Some {| accuracy := Some a; final_test_loss := loss; its := p |}.
Proof.
  intros H whole l. induction l as [|p l IH]; intros k done; cbn [attempts length].
  - exists []. rewrite Nat.add_0_r, app_nil_r. repeat split; auto. intros [|i] p; discriminate.
  - destruct (H (S k) whole p) as (a & loss & E & L). unfold attempt_training. rewrite E. cbn [obind].
    assert (whole && accurate {| accuracy := Some a; final_test_loss := loss; its := p |} = false) as ->.
    { destruct whole; [|reflexivity]. cbn. apply Qle_bool_false. now apply L. }
    destruct (IH (S k) (done ++ [{| accuracy := Some a; final_test_loss := loss; its := p |}])) as (rs & E1 & E2 & E3 & E4).
    exists ({| accuracy := Some a; final_test_loss := loss; its := p |} :: rs). rewrite E1, <- app_assoc. split; [do 3 f_equal; lia|]. split; [cbn; now rewrite E2|].
    split; [constructor; [discriminate|exact E3]|]. intros [|i] q Hi.
    + injection Hi as <-. exists a, loss. rewrite Nat.add_0_r. auto.
    + cbn [nth_error] in Hi |- *. destruct (E4 i q Hi) as (b & lb & T1 & T2). exists b, lb. replace (S k + S i)%nat with (S (S k) + i)%nat by lia. auto.
Qed.
Lemma attempts_found : forall whole l k done k' rs, attempts train whole k done l = Ok (k', rs, true) ->
  whole = true /\ exists p a loss, In p l /\ train k' true p = Trained (Some a) loss /\ target_accuracy <= a /\ (k < k' <= k + length l)%nat.
Proof.
  intros whole l. induction l as [|p l IH]; intros k done k' rs E; cbn [attempts] in E; [discriminate|]. unfold attempt_training in E.
  assert (K : forall r, attempts train whole (S k) (done ++ [r]) l = Ok (k', rs, true) ->
    whole = true /\ exists p' a loss, In p' (p :: l) /\ train k' true p' = Trained (Some a) loss /\ target_accuracy <= a /\ (k < k' <= k + length (p :: l))%nat).
  { intros r Er. destruct (IH _ _ _ _ Er) as (W & q & a & loss & A1 & A2 & A3 & A4). split; [exact W|]. exists q, a, loss. split; [now right|]. split; [exact A2|]. split; [exact A3|]. cbn [length]. lia. }
  destruct (train (S k) whole p) as [a loss| |] eqn:Et; cbn [obind] in E; [| |discriminate].
  - destruct (whole && accurate _) eqn:F; [|eapply K, E]. injection E as <- <-. apply andb_true_iff in F as [-> F]. unfold accurate in F. cbn [accuracy] in F. destruct a as [a|]; [|discriminate].
    apply Qle_bool_iff in F. split; [reflexivity|]. exists p, a, loss. split; [now left|]. split; [exact Et|]. split; [exact F|]. cbn [length]. lia.
  - destruct (whole && accurate no_result) eqn:F; [|eapply K, E]. apply andb_true_iff in F as [_ F]. discriminate.
Qed.

Lemma subsequence_filter : forall X (f : X -> bool) l, subsequence (filter f l) l.
Proof. intros X f l. induction l as [|x l IH]; cbn [filter]; [constructor|]. destruct (f x); now constructor. Qed.
Lemma subsequence_length : forall X (l m : list X), subsequence l m -> (length l <= length m)%nat.
Proof. intros X l m H. induction H; cbn; lia. Qed.
Lemma filter_perm : forall X (f : X -> bool) l m, Permutation l m -> Permutation (filter f l) (filter f m).
Proof.
  intros X f l m H. induction H; cbn [filter]; auto. - destruct (f x); auto. - destruct (f x), (f y); auto. apply perm_swap. - etransitivity; eauto.
Qed.
Lemma filter_all : forall X (f : X -> bool) l, (forall x, In x l -> f x = true) -> filter f l = l.
Proof. intros X f l H. induction l as [|x l IH]; cbn [filter]; [reflexivity|]. rewrite H by now left. f_equal. apply IH. intros y Hy. apply H. now right. Qed.
Lemma filter_none : forall X (f : X -> bool) l, (forall x, In x l -> f x = false) -> filter f l = [].
Proof. intros X f l H. induction l as [|x l IH]; cbn [filter]; [reflexivity|]. rewrite H by now left. apply IH. intros y Hy. apply H. now right. Qed.
Lemma filter_false : forall X (f : X -> bool) l, filter f l = [] -> forall x, In x l -> f x = false.
Proof. intros X f l H x Hx. destruct (f x) eqn:E; [|reflexivity]. assert (In x (filter f l)) by (apply filter_In; auto). now rewrite H in H0. Qed.
Lemma distinct_perm : forall l m, Permutation l m -> distinct l -> distinct m.
Proof.
  intros l m H. unfold distinct. induction H; intros D; auto.
  - inversion D; subst. constructor; [|now apply IHPermutation]. eapply Permutation_Forall; eauto.
  - inversion D as [|? ? F1 D1]; subst. inversion D1 as [|? ? F2 D2]; subst. inversion F1; subst. constructor; [constructor; [|exact F2]|constructor; assumption].
    intros [A B]. apply H1. split; symmetry; assumption.
Qed.
Lemma distinct_app : forall l m a b, distinct (l ++ m) -> In a l -> In b m -> same a b = false.
Proof.
  intros l m a b. induction l as [|x l IH]; intros D Ha Hb; [destruct Ha|]. inversion D as [|? ? F1 D1]; subst. destruct Ha as [->|Ha]; [|now apply IH].
  rewrite Forall_forall in F1. apply not_true_iff_false. rewrite same_iff. apply F1. apply in_or_app. now right.
Qed.
Lemma sorted_app : forall X (P : X -> X -> Prop) l m, StronglySorted P (l ++ m) -> forall a b, In a l -> In b m -> P a b.
Proof.
  intros X P l m. induction l as [|x l IH]; intros H a b Ha Hb; [destruct Ha|]. inversion H as [|? ? Hs Hf]; subst. destruct Ha as [->|Ha]; [|eauto]. rewrite Forall_forall in Hf. apply Hf. apply in_or_app. now right.
Qed.

(** A round in which nothing is found. *)
Lemma round_again : sorts sort -> never_accurate train -> forall s, combinations s <> [] -> exists l size rs,
  round train sort recordCount s = Ok (Again {| combinations := l; attempt := attempt s + length (combinations s); next_search_size := size |}) /\ l <> [] /\
  map its rs = combinations s /\ Permutation (sort rs) rs /\ StronglySorted (fun a b => better b a = false) (sort rs) /\
  (forall i p, nth_error (combinations s) i = Some p -> exists a loss, train (S (attempt s) + i)%nat (uses_source recordCount (next_search_size s)) p = Trained (Some a) loss /\ nth_error rs i = Some {| accuracy := Some a; final_test_loss := loss; its := p |}) /\
  l = (if (1 <? length (combinations s))%nat
       then filter (fun p => existsb (fun r => same (its r) p) (firstn (if uses_source recordCount (next_search_size s) then 1%nat else Nat.max (length (combinations s) / 4) 2) (sort rs))) (combinations s)
       else if uses_source recordCount (next_search_size s) then nearby (hd (0, 0) (combinations s)) else combinations s).
Proof.
  intros Hs Ht s Hn. destruct (attempts_all Ht (uses_source recordCount (next_search_size s)) (combinations s) (attempt s) []) as (rs & E & E1 & E2 & E3).
  pose proof (sortable_numbers rs E2) as So. destruct (Hs rs So) as [P St]. cbn [app] in E.
  assert (Ln : length (sort rs) = length (combinations s)). { rewrite (Permutation_length P), <- E1, map_length. reflexivity. }
  unfold round. cbv zeta. rewrite E. cbn [obind]. unfold next_combinations. rewrite So, Ln.
  destruct (1 <? length (combinations s))%nat eqn:E4.
  - cbn [obind]. eexists. eexists. exists rs. split; [reflexivity|]. split; [|auto 10].
    destruct (sort rs) as [|r srt] eqn:Es; [apply Nat.ltb_lt in E4; cbn in Ln; lia|].
    assert (Hr : In r rs) by (eapply Permutation_in; [exact P|now left]). assert (Hi : In (its r) (combinations s)) by (rewrite <- E1; now apply in_map).
    set (top := if uses_source _ _ then 1%nat else _). assert (exists t, top = S t) as [t ->]. { unfold top. destruct (uses_source _ _); [eauto|]. exists (Nat.max (length (combinations s) / 4) 2 - 1)%nat. lia. }
    intros Z. apply filter_false with (x := its r) in Z; [|exact Hi]. cbn [firstn existsb] in Z. rewrite same_refl in Z. discriminate.
  - destruct (uses_source recordCount (next_search_size s)).
    + destruct (combinations s) as [|p q] eqn:Ec; [contradiction|]. cbn [obind hd] in *. eexists. eexists. exists rs. split; [reflexivity|]. split; [destruct p; discriminate|auto 10].
    + cbn [obind]. eexists. eexists. exists rs. split; [reflexivity|]. auto 10.
Qed.

Lemma filter_in_firstn : forall l rs (sorted : list result) top, distinct l -> map its rs = l -> Permutation sorted rs ->
  Permutation (filter (fun p => existsb (fun r => same (its r) p) (firstn top sorted)) l) (map its (firstn top sorted)).
Proof.
  intros l rs sorted top D E P. set (f := fun p => existsb _ _).
  assert (Pl : Permutation l (map its (firstn top sorted) ++ map its (skipn top sorted))). { rewrite <- map_app, firstn_skipn, <- E. apply Permutation_map. now symmetry. }
  rewrite (filter_perm _ f _ _ Pl), filter_app. rewrite filter_all, filter_none; [now rewrite app_nil_r| |].
  - intros x Hx. unfold f. apply not_true_iff_false. intros H. apply existsb_exists in H as (r & Hr & Hs). rewrite (distinct_app _ _ (its r) x (distinct_perm _ _ Pl D)) in Hs; [discriminate| |exact Hx]. now apply in_map.
  - intros x Hx. unfold f. apply existsb_exists. apply in_map_iff in Hx as (r & <- & Hr). exists r. split; [exact Hr|apply same_refl].
Qed.
End Search.
