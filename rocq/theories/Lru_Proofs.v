From Coq Require Import List Bool Arith NArith Lia Permutation.
From Verif Require Import Outcome Lru_Model Lru_Spec.
Import ListNotations.

Lemma mem_spec k l : mem k l = true <-> In k l.
Proof.
  unfold mem. rewrite existsb_exists. split.
  - intros (x & H & E). apply N.eqb_eq in E. now subst.
  - intro H. exists k. split; [exact H|apply N.eqb_refl].
Qed.

(** the state after the keys of [recent] (latest first) were inserted as new *)
Record holds (c : nat) (recent : list N) (s : lru) : Prop := {
  h_cap : capacity s = c;
  h_list : lru_list s = firstn c recent;
  h_map : Permutation (cache_map s) (firstn c recent);
  h_nodup : NoDup (firstn c recent) }.

Lemma holds_new c : holds c [] (new_lru c).
Proof. split; cbn; auto; rewrite firstn_nil; constructor. Qed.

Lemma firstn_S_removelast {A} (l : list A) c (d : A) : (S c <= length l)%nat -> firstn (S c) l <> [] /\
  removelast (firstn (S c) l) = firstn c l /\ firstn (S c) l = firstn c l ++ [last (firstn (S c) l) d].
Proof.
  intro H. assert (Hn : firstn (S c) l <> []).
  { destruct l; [cbn in H; lia|discriminate]. }
  split; [exact Hn|].
  assert (E := app_removelast_last d Hn).
  assert (Hr : removelast (firstn (S c) l) = firstn c l).
  { rewrite removelast_firstn; [reflexivity|lia]. }
  split; [exact Hr|]. rewrite Hr in E. exact E.
Qed.

Lemma filter_id {A} (f : A -> bool) l : (forall x, In x l -> f x = true) -> filter f l = l.
Proof.
  induction l as [|a l IH]; intro H; [reflexivity|]. cbn. rewrite (H a) by now left. f_equal. apply IH. intros x Hx. apply H. now right.
Qed.

Lemma filter_perm {A} (f : A -> bool) l l' : Permutation l l' -> Permutation (filter f l) (filter f l').
Proof.
  induction 1; cbn; auto.
  - destruct (f x); auto.
  - destruct (f x), (f y); auto. apply perm_swap.
  - eapply perm_trans; eauto.
Qed.

Lemma insert_holds c recent s k : (0 < c)%nat -> holds c recent s -> ~ In k (firstn c recent) ->
  exists s', insert s k = Ok s' /\ holds c (k :: recent) s'.
Proof.
  intros Hc [H1 H2 H3 H4] Hk. unfold insert. rewrite H1.
  assert (Hlen : length (cache_map s) = length (firstn c recent)) by now apply Permutation_length.
  assert (Hnew : forall m l, Permutation m l -> ~ In k l ->
    (if mem k m then m else k :: m) = k :: m).
  { intros m l P Hn. destruct (mem k m) eqn:E; [|reflexivity]. apply mem_spec in E. exfalso. apply Hn. eapply Permutation_in; eauto. }
  rewrite Hlen. destruct (Nat.leb_spec c (length (firstn c recent))) as [L|L].
  - rewrite firstn_length in L. destruct c as [|c]; [lia|].
    destruct (firstn_S_removelast recent c 0%N) as (Hne & Hr & Hl); [lia|].
    rewrite H2. destruct (firstn (S c) recent) as [|x r] eqn:Ef; [congruence|]. cbn [obind].
    set (y := last (x :: r) x).
    assert (Hy : x :: r = firstn c recent ++ [y]).
    { rewrite Hl. f_equal. f_equal. unfold y. clear. revert x. induction r; intro x; [reflexivity|]. cbn in *. destruct r; auto. }
    rewrite Hr.
    assert (Hnd : NoDup (firstn c recent ++ [y])) by (rewrite <- Hy; exact H4).
    assert (Hf : Permutation (filter (fun z => negb (N.eqb z y)) (cache_map s)) (firstn c recent)).
    { eapply perm_trans; [apply filter_perm; exact H3|]. rewrite Hy, filter_app. cbn [filter]. rewrite N.eqb_refl. cbn [negb].
      rewrite app_nil_r, filter_id; [reflexivity|]. intros z Hz. destruct (N.eqb_spec z y) as [->|]; [|reflexivity].
      exfalso. apply NoDup_remove_2 in Hnd. rewrite app_nil_r in Hnd. contradiction. }
    assert (Hk' : ~ In k (firstn c recent)) by (intro Hin; apply Hk; rewrite Hy; apply in_or_app; now left).
    eexists. split; [reflexivity|]. rewrite (Hnew _ _ Hf Hk'). split; cbn [capacity lru_list cache_map firstn].
    + reflexivity.
    + reflexivity.
    + now constructor.
    + constructor; [exact Hk'|]. apply NoDup_remove_1 in Hnd. now rewrite app_nil_r in Hnd.
  - cbn [obind]. rewrite firstn_length in L. eexists. split; [reflexivity|].
    assert (Hall : forall c', (length recent <= c')%nat -> firstn c' recent = recent) by (intros; now apply firstn_all2).
    rewrite (Hnew _ _ H3 Hk). destruct c as [|c]; [lia|].
    assert (Ha : firstn (S c) recent = recent) by (apply Hall; lia).
    assert (Hb : firstn (S c) (k :: recent) = k :: recent) by (cbn [firstn]; now rewrite (Hall c) by lia).
    rewrite Ha in *. split; cbn [capacity lru_list cache_map]; rewrite ?Hb; auto.
    + now rewrite H2.
    + now constructor.
Qed.

Lemma touch_holds c recent s k : (0 < c)%nat -> holds c recent s ->
  exists s', touch s k = Ok (s', if in_dec N.eq_dec k (firstn c recent) then false else true) /\
    holds c (if in_dec N.eq_dec k (firstn c recent) then recent else k :: recent) s'.
Proof.
  intros Hc H. unfold touch.
  assert (E : contains s k = true <-> In k (firstn c recent)).
  { unfold contains. rewrite mem_spec. split; apply Permutation_in; [apply (h_map _ _ _ H)|apply Permutation_sym, (h_map _ _ _ H)]. }
  destruct (in_dec N.eq_dec k (firstn c recent)) as [Hin|Hin].
  - rewrite (proj2 E Hin). eauto.
  - destruct (contains s k) eqn:Q; [exfalso; apply Hin, E; reflexivity|].
    destruct (insert_holds c recent s k Hc H Hin) as (s' & -> & H'). cbn. eauto.
Qed.

Fixpoint remembered (c : nat) (recent ks : list N) : list N :=
  match ks with
  | [] => recent
  | k :: r => if in_dec N.eq_dec k (firstn c recent) then remembered c recent r else remembered c (k :: recent) r
  end.

Lemma touch_all_spec c ks : forall recent s, (0 < c)%nat -> holds c recent s ->
  exists s', touch_all s ks = Ok (s', fresh_flags c recent ks) /\ holds c (remembered c recent ks) s'.
Proof.
  induction ks as [|k ks IH]; intros recent s Hc H; cbn [touch_all fresh_flags remembered]; [eauto|].
  destruct (touch_holds c recent s k Hc H) as (s1 & -> & H1). cbn [obind fst snd].
  destruct (in_dec N.eq_dec k (firstn c recent)).
  - destruct (IH recent s1 Hc H1) as (s2 & -> & H2). cbn. eauto.
  - destruct (IH (k :: recent) s1 Hc H1) as (s2 & -> & H2). cbn. eauto.
Qed.

Lemma remembered_chosen c ks : forall recent,
  remembered c recent ks = rev (chosen (fresh_flags c recent ks) ks) ++ recent.
Proof.
  induction ks as [|k ks IH]; intro recent; cbn [remembered fresh_flags chosen]; [reflexivity|].
  destruct (in_dec N.eq_dec k (firstn c recent)); cbn [chosen rev]; [apply IH|].
  rewrite IH. now rewrite <- app_assoc.
Qed.

(** with room for all keys: first occurrences *)
Lemma fresh_first c ks : forall recent seen,
  (forall k, In k recent <-> In k seen) -> NoDup recent ->
  (forall l, NoDup l -> incl l (recent ++ ks) -> (length l <= c)%nat) ->
  fresh_flags c recent ks = first_flags seen ks.
Proof.
  induction ks as [|k ks IH]; intros recent seen Hs Hn Hc; cbn [fresh_flags first_flags]; [reflexivity|].
  assert (Hr : firstn c recent = recent).
  { apply firstn_all2. apply Hc; [exact Hn|]. intros x Hx. apply in_or_app. now left. }
  rewrite Hr. destruct (in_dec N.eq_dec k recent) as [Hin|Hin]; destruct (in_dec N.eq_dec k seen) as [Hin2|Hin2];
    try (exfalso; apply Hs in Hin; contradiction); try (exfalso; apply Hin; apply Hs; assumption).
  - f_equal. apply IH; [|exact Hn|].
    + intro x. rewrite Hs. split; [now right|]. intros [<-|Hx]; assumption.
    + intros l Hl Hi. apply Hc; [exact Hl|]. intros x Hx. apply Hi in Hx. apply in_app_or in Hx.
      apply in_or_app. destruct Hx; [now left|right; now right].
  - f_equal. apply IH.
    + intro x. cbn [In]. rewrite Hs. tauto.
    + now constructor.
    + intros l Hl Hi. apply Hc; [exact Hl|]. intros x Hx. apply Hi in Hx. apply in_or_app. cbn [app In] in Hx.
      destruct Hx as [<-|Hx]; [right; now left|]. apply in_app_or in Hx. destruct Hx; [now left|right; now right].
Qed.

Lemma fresh_all_written c ks : forall recent k, In k ks -> In k recent \/ In k (chosen (fresh_flags c recent ks) ks).
Proof.
  induction ks as [|x ks IH]; intros recent k H; [destruct H|]. cbn [fresh_flags].
  destruct (in_dec N.eq_dec x (firstn c recent)) as [Hin|Hin]; cbn [chosen].
  - destruct H as [<-|H].
    + left. rewrite <- (firstn_skipn c recent). apply in_or_app. now left.
    + apply (IH recent) in H. exact H.
  - destruct H as [<-|H]; [right; now left|]. apply (IH (x :: recent)) in H as [[<-|H]|H].
    + right. now left.
    + now left.
    + right. now right.
Qed.

Lemma fresh_flags_length c ks : forall recent, length (fresh_flags c recent ks) = length ks.
Proof.
  induction ks as [|k ks IH]; intro re; cbn [fresh_flags]; [reflexivity|].
  destruct (in_dec N.eq_dec k (firstn c re)); cbn [length]; f_equal; apply IH.
Qed.
