From Coq Require Import Ascii String List Bool Arith Lia Permutation.
From Verif Require Import Chars Trie_Model Trie_Spec.
Import ListNotations.

Fixpoint trie_ind' (P : trie -> Prop)
  (H : forall ch v e, Forall (fun c => P (snd c)) ch -> P (Node ch v e)) (t : trie) : P t :=
  match t with
  | Node ch v e => H ch v e ((fix go l : Forall (fun c => P (snd c)) l :=
      match l with [] => Forall_nil _ | c :: r => Forall_cons c (trie_ind' P H (snd c)) (go r) end) ch)
  end.

Inductive wf : trie -> Prop :=
| wf_node ch v e : NoDup (map fst ch) -> Forall (fun c => wf (snd c)) ch -> wf (Node ch v e).

Lemma child_some c l t : NoDup (map fst l) -> (child c l = Some t <-> In (c, t) l).
Proof.
  induction l as [|[d s] l IH]; cbn [child map fst]; intro Hn; [split; [discriminate|intros []]|].
  inversion Hn as [|? ? Ha Hb]; subst. destruct (ceq_spec d c) as [->|Q].
  - split.
    + intro E. injection E as ->. now left.
    + intros [E|Hin]; [congruence|]. exfalso. apply Ha. change c with (fst (c, t)). now apply in_map.
  - rewrite IH by exact Hb. split; [now right|]. intros [E|Hin]; [congruence|exact Hin].
Qed.

Lemma child_none c l : child c l = None <-> ~ In c (map fst l).
Proof.
  induction l as [|[d s] l IH]; cbn [child map fst In]; [split; [auto|reflexivity]|].
  destruct (ceq_spec d c) as [->|Q].
  - split; [discriminate|]. intro H. exfalso. apply H. now left.
  - rewrite IH. intuition.
Qed.

Lemma set_child_keys c s l : map fst (set_child c s l) = map fst l.
Proof. induction l as [|[d t] l IH]; [reflexivity|]. cbn [set_child]. destruct (ceq d c); cbn; congruence. Qed.

Lemma child_set c s l d : child d (set_child c s l) =
  if ceq c d then match child c l with None => None | Some _ => Some s end else child d l.
Proof.
  induction l as [|[a t] l IH]; cbn [set_child child]; [destruct (ceq c d); reflexivity|].
  destruct (ceq_spec a c) as [->|Q]; cbn [child].
  - destruct (ceq_spec c d); reflexivity.
  - rewrite IH. destruct (ceq_spec a d) as [->|Q2]; [|reflexivity].
    destruct (ceq_spec c d); [congruence|reflexivity].
Qed.

Lemma set_child_in c s l x : In x (set_child c s l) -> In x l \/ x = (c, s).
Proof.
  induction l as [|[a t] l IH]; cbn [set_child]; [intros []|]. destruct (ceq_spec a c) as [->|Q].
  - intros [<-|H]; [now right|left; now right].
  - intros [<-|H]; [left; now left|]. apply IH in H as [H|H]; [left; now right|now right].
Qed.

Lemma child_perm c l l' : NoDup (map fst l) -> Permutation l l' -> child c l = child c l'.
Proof.
  intros Hn P. assert (Hn' : NoDup (map fst l')) by (eapply Permutation_NoDup; [apply Permutation_map; exact P|exact Hn]).
  destruct (child c l) as [t|] eqn:E.
  - apply child_some in E; [|exact Hn]. symmetry. apply child_some; [exact Hn'|]. eapply Permutation_in; eauto.
  - symmetry. apply child_none. apply child_none in E. intro H. apply E.
    eapply Permutation_in; [|exact H]. now apply Permutation_map, Permutation_sym.
Qed.

Section Ins.
Context (add : list (ascii * trie) -> ascii * trie -> list (ascii * trie)).
Context (Hadd : forall l c, Permutation (add l c) (c :: l)).

Lemma wf_empty : wf empty.
Proof. constructor; constructor. Qed.

Lemma wf_children t : wf t -> NoDup (map fst (children t)) /\ Forall (fun c => wf (snd c)) (children t).
Proof. inversion 1; subst; auto. Qed.

Lemma insert_wf w v : forall t, wf t -> wf (insert add w v t).
Proof.
  induction w as [|c w IH]; intros t Ht; cbn [insert].
  - inversion Ht; subst. now constructor.
  - destruct (wf_children t Ht) as [Hn Hf]. destruct (child c (children t)) as [s|] eqn:E.
    + constructor; [now rewrite set_child_keys|]. rewrite Forall_forall in *. intros x Hx.
      apply set_child_in in Hx as [Hx| ->]; [auto|]. cbn [snd]. apply IH.
      apply child_some in E; [|exact Hn]. apply (Hf _ E).
    + constructor.
      * eapply Permutation_NoDup; [apply Permutation_map, Permutation_sym, Hadd|]. cbn [map fst].
        constructor; [now apply child_none|exact Hn].
      * eapply Permutation_Forall; [apply Permutation_sym, Hadd|]. constructor; [|exact Hf]. cbn [snd]. apply IH, wf_empty.
Qed.

Lemma walk_empty u : walk u empty = match u with [] => Some empty | _ => None end.
Proof. destruct u; reflexivity. Qed.

(** what an insertion changes *)
Lemma insert_walk w v : forall t u, wf t ->
  match walk u (insert add w v t) with
  | None => walk u t = None /\ ~ extends w u
  | Some n =>
      (isEnd n = true <-> u = w \/ exists m, walk u t = Some m /\ isEnd m = true) /\
      (u = w -> value n = v) /\
      (u <> w -> match walk u t with Some m => value n = value m | None => True end) /\
      (walk u t <> None \/ extends w u)
  end.
Proof.
  induction w as [|c w IH]; intros t u Ht.
  - cbn [insert]. destruct u as [|d u]; cbn [walk children].
    + cbn [isEnd value]. repeat split; auto; try tauto. left. discriminate.
    + destruct (child d (children t)) as [s|].
      * destruct (walk u s) as [n|].
        -- repeat split; auto; try tauto.
           ++ intro H. right. eauto.
           ++ intros [H|(m & E & H)]; [discriminate|]. congruence.
           ++ discriminate.
           ++ left. discriminate.
        -- split; [reflexivity|]. intros [x E]. discriminate.
      * split; [reflexivity|]. intros [x E]. discriminate.
  - destruct (wf_children t Ht) as [Hn Hf]. cbn [insert]. destruct u as [|d u].
    + cbn [walk]. destruct (child c (children t)); cbn [isEnd value walk]; repeat split; auto; try discriminate;
      try (intro H; right; eauto; fail); try (intros [H|(m & E & H)]; [discriminate|congruence]); left; discriminate.
    + destruct (child c (children t)) as [s|] eqn:E.
      * cbn [walk children]. rewrite child_set, E. destruct (ceq_spec c d) as [<-|Q].
        -- rewrite E. assert (Hs : wf s).
           { apply child_some in E; [|exact Hn]. rewrite Forall_forall in Hf. apply (Hf _ E). }
           specialize (IH s u Hs). destruct (walk u (insert add w v s)) as [n|].
           ++ destruct IH as (I1 & I2 & I3 & I4). repeat split.
              ** intro H. apply I1 in H as [->|H]; auto.
              ** intros [H|H]; apply I1; [left; congruence|now right].
              ** intro H. apply I2. congruence.
              ** intro H. apply I3. congruence.
              ** destruct I4 as [H|[x ->]]; [now left|right]. now exists x.
           ++ destruct IH as [I1 I2]. split; [exact I1|]. intros [x Ex]. apply I2. exists x. cbn in Ex. congruence.
        -- destruct (child d (children t)) as [s'|].
           ++ destruct (walk u s') as [n|].
              ** repeat split; auto.
                 --- intro H. right. eauto.
                 --- intros [H|(m & E' & H)]; congruence.
                 --- intro H. congruence.
                 --- left. discriminate.
              ** split; [reflexivity|]. intros [x Ex]. cbn in Ex. congruence.
           ++ split; [reflexivity|]. intros [x Ex]. cbn in Ex. congruence.
      * cbn [walk children].
        assert (Ec : forall d, child d (add (children t) (c, insert add w v empty)) =
          if ceq c d then Some (insert add w v empty) else child d (children t)).
        { intro d'. rewrite (child_perm d' _ ((c, insert add w v empty) :: children t)); [reflexivity| |apply Hadd].
          eapply Permutation_NoDup; [apply Permutation_map, Permutation_sym, Hadd|]. cbn [map fst].
          constructor; [now apply child_none|exact Hn]. }
        rewrite Ec. destruct (ceq_spec c d) as [<-|Q].
        -- rewrite E. specialize (IH empty u wf_empty). rewrite walk_empty in IH.
           destruct (walk u (insert add w v empty)) as [n|].
           ++ destruct IH as (I1 & I2 & I3 & I4). repeat split; auto.
              ** intro H. apply I1 in H as [->|(m & Em & H)]; [now left|]. destruct u; [|discriminate].
                 injection Em as <-. discriminate.
              ** intros [H|(m & Em & H)]; [apply I1; left; congruence|discriminate].
              ** intro H. apply I2. congruence.
              ** right. destruct I4 as [H|[x ->]]; [|now exists x]. destruct u; [|now destruct H]. now exists w.
           ++ split; [reflexivity|]. destruct IH as [I1 I2]. intros [x Ex]. apply I2. exists x. cbn in Ex. congruence.
        -- destruct (child d (children t)) as [s'|].
           ++ destruct (walk u s') as [n|].
              ** repeat split; auto.
                 --- intro H. right. eauto.
                 --- intros [H|(m & E' & H)]; congruence.
                 --- intro H. congruence.
                 --- left. discriminate.
              ** split; [reflexivity|]. intros [x Ex]. cbn in Ex. congruence.
           ++ split; [reflexivity|]. intros [x Ex]. cbn in Ex. congruence.
Qed.
End Ins.

(** the trie answers as the history *)
Record represents (h : list (str * str)) (t : trie) : Prop := {
  rep_wf : wf t;
  rep_walk : forall u, walk u t <> None <-> u = [] \/ exists w, In w (map fst h) /\ extends w u;
  rep_end : forall u, (exists n, walk u t = Some n /\ isEnd n = true) <-> In u (map fst h);
  rep_val : forall u v n, latest h u v -> walk u t = Some n -> value n = v }.

Lemma latest_snoc h w v u x : latest (h ++ [(w, v)]) u x -> (u = w /\ x = v) \/ (u <> w /\ latest h u x).
Proof.
  intros (a & b & E & Hn). destruct b as [|e b _] using rev_ind.
  - apply app_inj_tail in E as [-> E]. injection E as -> ->. now left.
  - rewrite map_app in Hn. replace (a ++ (u, x) :: b ++ [e]) with ((a ++ (u, x) :: b) ++ [e]) in E
      by now rewrite <- app_assoc. apply app_inj_tail in E as [-> <-].
    right. split.
    + intros ->. apply Hn. apply in_or_app. right. now left.
    + exists a, b. split; [reflexivity|]. intro H. apply Hn. apply in_or_app. now left.
Qed.

Lemma latest_exists h u : In u (map fst h) -> exists v, latest h u v.
Proof.
  induction h as [|[w v] h IH] using rev_ind; [intros []|].
  intro H. destruct (list_eq_dec ascii_dec u w) as [->|Q].
  - exists v, h, []. split; [reflexivity|intros []].
  - rewrite map_app, in_app_iff in H. destruct H as [H|[H|[]]]; [|cbn in H; congruence].
    destruct (IH H) as (x & a & b & -> & Hn). exists x, a, (b ++ [(w, v)]).
    rewrite <- app_assoc. split; [reflexivity|]. rewrite map_app, in_app_iff. cbn. intros [?|[?|[]]]; congruence.
Qed.

Lemma represents_empty : represents [] empty.
Proof.
  split.
  - apply wf_empty.
  - intros [|c u]; cbn.
    + split; [now left|discriminate].
    + split; [congruence|]. intros [H|(w & [] & _)]. discriminate.
  - intro u. cbn. split; [|intros []]. intros (n & E & H). destruct u; [|discriminate]. injection E as <-. discriminate.
  - intros u v n (a & b & E & _). destruct a; discriminate.
Qed.

Lemma represents_insert add h t w v : (forall l c, Permutation (add l c) (c :: l)) ->
  represents h t -> represents (h ++ [(w, v)]) (insert add w v t).
Proof.
  intros Hadd [R1 R2 R3 R4]. split.
  - now apply insert_wf.
  - intro u. pose proof (insert_walk add Hadd w v t u R1) as I. rewrite map_app.
    destruct (walk u (insert add w v t)) as [n|].
    + destruct I as (_ & _ & _ & I). split; [intros _|discriminate]. destruct I as [I|I].
      * apply R2 in I as [->|(x & Hx & He)]; [now left|]. right. exists x. split; [apply in_or_app; now left|exact He].
      * right. exists w. split; [apply in_or_app; right; now left|exact I].
    + destruct I as [I1 I2]. split; [congruence|]. intros [->|(x & Hx & He)]; [discriminate|].
      apply in_app_or in Hx as [Hx|[<-|[]]]; [|contradiction].
      exfalso. assert (walk u t <> None) by (apply R2; right; eauto). contradiction.
  - intro u. pose proof (insert_walk add Hadd w v t u R1) as I. rewrite map_app, in_app_iff. cbn [map fst In].
    destruct (walk u (insert add w v t)) as [n|].
    + destruct I as (I & _). rewrite <- R3. split.
      * intros (m & E & H). injection E as <-. apply I in H as [->|H]; [right; now left|now left].
      * intro H. exists n. split; [reflexivity|]. apply I. destruct H as [H|[->|[]]]; [now right|now left].
    + destruct I as [I1 I2]. rewrite <- R3. split.
      * intros (m & E & _). discriminate.
      * intros [(m & E & _)|[->|[]]]; [congruence|]. exfalso. apply I2. exists []. now rewrite app_nil_r.
  - intros u x n L E. pose proof (insert_walk add Hadd w v t u R1) as I. rewrite E in I.
    destruct I as (I1 & I2 & I3 & I4). apply latest_snoc in L as [[-> ->]|[Q L]]; [auto|].
    specialize (I3 Q). destruct (walk u t) as [m|] eqn:Em.
    + rewrite I3. eauto.
    + exfalso. destruct L as (a & b & -> & _). assert (H : exists n0, walk u t = Some n0 /\ isEnd n0 = true).
      { apply R3. rewrite map_app, in_app_iff. right. now left. }
      destruct H as (n0 & H & _). congruence.
Qed.

Lemma build_from_represents add : hash_order add -> forall h2 i h1 t, represents h1 t ->
  represents (h1 ++ h2) (build_from add i h2 t).
Proof.
  intro Ha. induction h2 as [|[w v] h2 IH]; intros i h1 t R; cbn [build_from]; [now rewrite app_nil_r|].
  replace (h1 ++ (w, v) :: h2) with ((h1 ++ [(w, v)]) ++ h2) by now rewrite <- app_assoc.
  apply IH. apply represents_insert; auto.
Qed.

Lemma build_represents add h : hash_order add -> represents h (build add h).
Proof. intro Ha. apply (build_from_represents add Ha h 0 []). apply represents_empty. Qed.

Lemma search_spec add h w : hash_order add -> (search (build add h) w = true <-> In w (map fst h)).
Proof.
  intro Ha. pose proof (build_represents add h Ha) as R. rewrite <- (rep_end _ _ R). unfold search.
  destruct (walk w (build add h)) as [n|]; split.
  - eauto.
  - intros (m & E & H). congruence.
  - discriminate.
  - intros (m & E & _). discriminate.
Qed.

Lemma lookup_spec add h w : hash_order add ->
  (forall v, latest h w v -> lookup (build add h) w = v) /\
  (~ In w (map fst h) -> lookup (build add h) w = []).
Proof.
  intro Ha. pose proof (build_represents add h Ha) as R. split.
  - intros v L. assert (Hin : In w (map fst h)).
    { destruct L as (a & b & -> & _). rewrite map_app, in_app_iff. right. now left. }
    apply (rep_end _ _ R) in Hin as (n & E & H). unfold lookup. rewrite E, H. eapply (rep_val _ _ R); eauto.
  - intro Hn. unfold lookup. destruct (walk w (build add h)) as [n|] eqn:E; [|reflexivity].
    destruct (isEnd n) eqn:H; [|reflexivity]. exfalso. apply Hn. apply (rep_end _ _ R). eauto.
Qed.

Lemma startsWith_spec add h p : hash_order add ->
  (startsWith (build add h) p = true <-> p = [] \/ exists w, In w (map fst h) /\ extends w p).
Proof.
  intro Ha. pose proof (build_represents add h Ha) as R. rewrite <- (rep_walk _ _ R). unfold startsWith.
  destruct (walk p (build add h)); split; congruence.
Qed.

(** ** depth-first search *)
Definition best_of (P : str -> Prop) (best0 r : str) : Prop :=
  length best0 <= length r /\ (forall w, P w -> length w <= length r) /\ (r = best0 \/ P r).

Lemma best_nil b : best_of (fun _ => False) b b.
Proof. split; [lia|]. split; [intros ? []|now left]. Qed.
Lemma best_step P Q b0 b1 r : best_of P b0 b1 -> best_of Q b1 r -> best_of (fun w => P w \/ Q w) b0 r.
Proof.
  intros (A1 & A2 & A3) (B1 & B2 & B3). split; [lia|]. split.
  - intros w [H|H]; [specialize (A2 w H); lia|auto].
  - destruct B3 as [->|H]; [|auto]. destruct A3 as [->|H]; auto.
Qed.
Lemma best_ext P Q b r : (forall w, P w <-> Q w) -> best_of P b r -> best_of Q b r.
Proof. intros H (A1 & A2 & A3). split; [exact A1|]. split; [intros w Hw; apply A2; now apply H|]. destruct A3 as [A3|A3]; [now left|right; now apply H]. Qed.

Lemma walk_app a b t : walk (a ++ b) t = match walk a t with None => None | Some n => walk b n end.
Proof.
  revert t; induction a as [|c a IH]; intro t; [reflexivity|]. cbn [app walk].
  destruct (child c (children t)); auto.
Qed.

Lemma dfs_spec t : forall prefix best, wf t ->
  best_of (fun w => exists u n, w = prefix ++ u /\ walk u t = Some n /\ isEnd n = true) best (dfs t prefix best).
Proof.
  induction t as [ch v e IH] using trie_ind'. intros prefix best Hw. inversion Hw as [? ? ? Hn Hf]; subst. cbn [dfs].
  set (best1 := if e && Nat.ltb (length best) (length prefix) then prefix else best).
  assert (H1 : best_of (fun w => w = prefix /\ e = true) best best1).
  { unfold best1, best_of. destruct e; cbn [andb].
    - destruct (Nat.ltb_spec (length best) (length prefix)).
      + split; [lia|]. split; [intros w [-> _]; lia|]. right. auto.
      + split; [lia|]. split; [intros w [-> _]; lia|]. now left.
    - split; [lia|]. split; [intros w [_ Q]; discriminate|]. now left. }
  set (go := fix go l b := match l with [] => b | (c, s) :: r => go r (dfs s (prefix ++ [c]) b) end).
  assert (H2 : forall l b, Forall (fun c => forall prefix best, wf (snd c) ->
      best_of (fun w => exists u n, w = prefix ++ u /\ walk u (snd c) = Some n /\ isEnd n = true) best (dfs (snd c) prefix best)) l ->
      Forall (fun c => wf (snd c)) l ->
    best_of (fun w => exists c s u n, In (c, s) l /\ w = prefix ++ c :: u /\ walk u s = Some n /\ isEnd n = true) b (go l b)).
  { clear. induction l as [|[c s] l IHl]; intros b Ha Hb; cbn [go].
    - eapply best_ext; [|apply best_nil]. intro w. split; [intros []|]. intros (? & ? & ? & ? & [] & _).
    - inversion Ha as [|? ? Ha1 Ha2]; inversion Hb as [|? ? Hb1 Hb2]; subst.
      eapply best_ext; [|eapply best_step; [apply (Ha1 (prefix ++ [c]) b Hb1)|apply (IHl _ Ha2 Hb2)]].
      intro w. cbn [snd]. split.
      + intros [(u & n & -> & E & H)|(c' & s' & u & n & Hin & H)].
        * exists c, s, u, n. rewrite <- app_assoc. split; [now left|]. auto.
        * exists c', s', u, n. split; [now right|exact H].
      + intros (c' & s' & u & n & [E|Hin] & -> & E2 & H).
        * injection E as -> ->. left. exists u, n. rewrite <- app_assoc. auto.
        * right. exists c', s', u, n. auto. }
  eapply best_ext; [|eapply best_step; [exact H1|apply (H2 ch best1 IH Hf)]].
  intro w. cbn beta. split.
  - intros [[-> ->]|(c & s & u & n & Hin & -> & E & H)].
    + exists [], (Node ch v true). rewrite app_nil_r. auto.
    + exists (c :: u), n. split; [reflexivity|]. split; [|exact H]. cbn [walk children].
      apply child_some in Hin; [|exact Hn]. now rewrite Hin.
  - intros (u & n & -> & E & H). destruct u as [|c u].
    + left. cbn in E. injection E as <-. rewrite app_nil_r. auto.
    + right. cbn [walk children] in E. destruct (child c ch) as [s|] eqn:Ec; [|discriminate].
      apply child_some in Ec; [|exact Hn]. exists c, s, u, n. auto.
Qed.

Lemma walk_wf u : forall t n, wf t -> walk u t = Some n -> wf n.
Proof.
  induction u as [|c u IH]; intros t n Ht E; cbn [walk] in E; [now injection E as <-|].
  destruct (wf_children t Ht) as [Hn Hf]. destruct (child c (children t)) as [s|] eqn:Ec; [|discriminate].
  apply child_some in Ec; [|exact Hn]. rewrite Forall_forall in Hf. eapply IH; [|exact E]. apply (Hf _ Ec).
Qed.

Lemma complete_spec add h p : hash_order add ->
  let r := complete (build add h) p in
  ((exists w, In w (map fst h) /\ extends w p) -> 
     In r (map fst h) /\ extends r p /\ forall w, In w (map fst h) -> extends w p -> length w <= length r) /\
  (~ (exists w, In w (map fst h) /\ extends w p) -> r = []).
Proof.
  intro Ha. cbv zeta. pose proof (build_represents add h Ha) as R. unfold complete.
  destruct (walk p (build add h)) as [n|] eqn:E.
  - pose proof (walk_wf _ _ _ (rep_wf _ _ R) E) as Hwf.
    destruct (dfs_spec n p p Hwf) as (B1 & B2 & B3).
    assert (Hiff : forall w, (In w (map fst h) /\ extends w p) <->
        (exists u m, w = p ++ u /\ walk u n = Some m /\ isEnd m = true)).
    { intro w. rewrite <- (rep_end _ _ R). split.
      - intros [(m & Em & H) [u ->]]. rewrite walk_app, E in Em. eauto.
      - intros (u & m & -> & Em & H). split; [|now exists u]. exists m. rewrite walk_app, E. auto. }
    split.
    + intros (w & Hw & Hx).
      assert (B2' : forall w, In w (map fst h) -> extends w p -> length w <= length (dfs n p p)).
      { intros w' Hw' Hx'. apply B2, Hiff. auto. }
      destruct B3 as [B3|B3].
      * assert (w = p).
        { specialize (B2' w Hw Hx). rewrite B3 in B2'. destruct Hx as [u ->]. rewrite app_length in B2'.
          destruct u; [apply app_nil_r|cbn in B2'; lia]. }
        subst w. rewrite B3 in *. auto.
      * apply Hiff in B3 as [? ?]. auto.
    + intro Hno. destruct B3 as [B3|B3]; [|exfalso; apply Hno; eexists; apply Hiff; exact B3].
      rewrite B3. assert (Hp : walk p (build add h) <> None) by congruence. apply (rep_walk _ _ R) in Hp as [->|Hp]; [reflexivity|contradiction].
  - split; [|reflexivity]. intros Hw. exfalso. assert (walk p (build add h) <> None) by (apply (rep_walk _ _ R); now right). contradiction.
Qed.
