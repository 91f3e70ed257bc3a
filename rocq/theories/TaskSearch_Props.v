(** C59, C81: the search for the parameters of a label task. *)
From Coq Require Import List Arith Bool QArith Lqa Lia Permutation Sorted.
From Verif Require Import Outcome TaskSearch_Model TaskSearch_Spec TaskSearch_Proofs.
Import ListNotations.
Local Open Scope Q_scope.

(** ** The combinations it starts with *)
Lemma values_above : forall fuel next max x y, (forall v, v < next v) -> In y (values fuel next max x) -> x <= y /\ y <= max.
Proof.
  induction fuel as [|fuel IH]; intros next max x y H Hy; cbn [values] in Hy; [destruct Hy|]. destruct (Qle_bool x max) eqn:E; [|destruct Hy]. apply Qle_bool_iff in E.
  destruct Hy as [<-|Hy]; [split; [apply Qle_refl|exact E]|]. destruct (IH _ _ _ _ H Hy) as [A B]. split; [|exact B]. specialize (H x). lra.
Qed.
Lemma values_increase : forall fuel next max x, (forall v, v < next v) -> ForallOrdPairs Qlt (values fuel next max x).
Proof.
  induction fuel as [|fuel IH]; intros next max x H; cbn [values]; [constructor|]. destruct (Qle_bool x max); constructor; [|now apply IH].
  apply Forall_forall. intros y Hy. apply values_above in Hy; [|exact H]. specialize (H x). lra.
Qed.
Lemma distinct_product : forall cs ls, ForallOrdPairs Qlt cs -> ForallOrdPairs Qlt ls -> distinct (flat_map (fun c => map (pair c) ls) cs).
Proof.
  intros cs ls Hc Hl. unfold distinct. assert (A : forall c, ForallOrdPairs (fun a b : combination => ~ (fst a == fst b /\ snd a == snd b)) (map (pair c) ls)).
  { intros c. induction Hl as [|x l F Hl IH]; cbn [map]; constructor; [|exact IH]. apply Forall_forall. intros p Hp. apply in_map_iff in Hp as (y & <- & Hy). rewrite Forall_forall in F. apply F in Hy. cbn [fst snd]. lra. }
  assert (App : forall (P : combination -> combination -> Prop) l m, ForallOrdPairs P l -> ForallOrdPairs P m -> (forall a b, In a l -> In b m -> P a b) -> ForallOrdPairs P (l ++ m)).
  { intros P l m H1 H2 H3. induction H1 as [|x l F H1 IH]; cbn [app]; [exact H2|]. constructor; [|apply IH; intros; apply H3; auto; now right].
    apply Forall_app. split; [exact F|]. apply Forall_forall. intros b Hb. apply H3; [now left|exact Hb]. }
  induction Hc as [|c cs F Hc IH]; cbn [flat_map]; [constructor|]. apply App; [apply A|exact IH|]. intros a b Ha Hb. apply in_map_iff in Ha as (x & <- & _).
  apply in_flat_map in Hb as (c' & Hc' & Hb). apply in_map_iff in Hb as (y & <- & _). rewrite Forall_forall in F. apply F in Hc'. cbn [fst snd]. lra.
Qed.
Lemma values_low : forall fuel max x y, 1 <= x -> In y (values fuel (fun v => v * (5 # 4)) max x) -> 1 <= y.
Proof.
  induction fuel as [|fuel IH]; intros max x y Hx Hy; cbn [values] in Hy; [destruct Hy|]. destruct (Qle_bool x max); [|destruct Hy]. destruct Hy as [<-|Hy]; [exact Hx|]. eapply IH; [|exact Hy]. lra.
Qed.
Lemma values_scaled : forall fuel max x, 1 <= x -> ForallOrdPairs Qlt (values fuel (fun v => v * (5 # 4)) max x).
Proof.
  induction fuel as [|fuel IH]; intros max x Hx; cbn [values]; [constructor|]. destruct (Qle_bool x max); constructor; [|apply IH; lra].
  apply Forall_forall. intros y Hy. assert (x * (5 # 4) <= y); [|lra]. clear IH. assert (H1 : 1 <= x * (5 # 4)) by lra. revert H1 Hy. generalize (x * (5 # 4)). clear. induction fuel as [|fuel IH]; intros x Hx Hy; cbn [values] in Hy; [destruct Hy|].
  destruct (Qle_bool x max); [|destruct Hy]. destruct Hy as [<-|Hy]; [apply Qle_refl|]. apply IH in Hy; lra.
Qed.
(** Every combination once, 192 of them, or 30 for the goal "speed"; no complexity below 1. *)
Theorem grid_is_distinct : forall speed, distinct (grid speed) /\ length (grid speed) = (if speed then 30 else 192)%nat /\ forall p, In p (grid speed) -> 1 <= fst p.
Proof.
  intros speed. split; [|split].
  - unfold grid. cbv zeta. apply distinct_product; [apply values_scaled; lra|]. apply values_increase. intros v. destruct speed; lra.
  - destruct speed; reflexivity.
  - intros p H. unfold grid in H. cbv zeta in H. apply in_flat_map in H as (c & Hc & Hp). apply in_map_iff in Hp as (x & <- & _). cbn [fst]. eapply values_low; [|exact Hc]. lra.
Qed.

(** ** C59 *)
(** When the search ends, the network it saves is that of its last attempt, which ran on the whole training
    data and reached the target: every attempt has its own number. *)
(** Partial, C59: that it ends is refuted below. *)
Theorem search_ends_accurate_partial : forall train sort recordCount n shuffled network,
  rounds train sort recordCount n (start shuffled) = Ok (Save network) ->
  exists p a loss, train network true p = Trained (Some a) loss /\ target_accuracy <= a.
Proof.
  intros train sort recordCount n shuffled network. generalize (start shuffled). induction n as [|n IH]; intros s E; cbn [rounds] in E; [discriminate|].
  destruct (round train sort recordCount s) as [v| |] eqn:Er; try discriminate. cbn [obind] in E. destruct v as [k|s']; [|eapply IH, E]. injection E as ->.
  unfold round in Er. cbv zeta in Er. destruct (attempts _ _ _ _ _) as [[[k rs] found]| |] eqn:Ea; try discriminate. cbn [obind] in Er. destruct found.
  - injection Er as ->. destruct (attempts_found _ _ _ _ _ _ _ Ea) as (W & p & a & loss & _ & A & B & _). eauto.
  - destruct (next_combinations _ _ _ _); discriminate.
Qed.
(** But it need not end: if no attempt on the whole data reaches the target, it goes on after any number of
    rounds, whatever the results are otherwise. *)
Theorem search_ends_refuted : forall train sort recordCount shuffled, sorts sort -> never_accurate train -> shuffled <> [] ->
  forall n, exists s, rounds train sort recordCount n (start shuffled) = Ok (Again s) /\ (n <= attempt s)%nat.
Proof.
  intros train sort recordCount shuffled Hs Ht Hn n. assert (G : forall s, combinations s <> [] -> exists s', rounds train sort recordCount n s = Ok (Again s') /\ (attempt s + n <= attempt s')%nat).
  { induction n as [|n IH]; intros s Hc; cbn [rounds].
    - exists s. split; [reflexivity|]. lia.
    - destruct (round_again train sort recordCount Hs Ht s Hc) as (l & size & rs & E & Hl & _). rewrite E. cbn [obind].
      destruct (IH {| combinations := l; attempt := attempt s + length (combinations s); next_search_size := size |} Hl) as (s' & E' & L). exists s'. split; [exact E'|]. cbn [attempt] in L.
      destruct (combinations s); [contradiction|]. cbn [length] in L. lia. }
  destruct (G (start shuffled) Hn) as (s & E & L). exists s. split; [exact E|]. exact L.
Qed.
(** And if every attempt fails with an exception, the second round takes the first of no combinations. *)
Theorem search_after_failures_refuted : forall train sort recordCount shuffled, sorts sort -> (forall k whole p, train k whole p = Failed) ->
  (2 <= length shuffled)%nat -> (forall p, In p shuffled -> 1 <= fst p) -> rounds train sort recordCount 2 (start shuffled) = UB.
Proof.
  intros train sort recordCount shuffled Hs Ht Hl Hp.
  assert (A : forall whole l k done, exists k', attempts train whole k done l = Ok (k', done ++ repeat no_result (length l), false)).
  { intros whole l. induction l as [|p l IH]; intros k done; cbn [attempts length repeat]; [exists k; now rewrite app_nil_r|].
    unfold attempt_training. rewrite Ht. cbn [obind]. replace (whole && accurate no_result) with false by (destruct whole; reflexivity).
    destruct (IH (S k) (done ++ [no_result])) as (k' & E). exists k'. rewrite E, <- app_assoc. reflexivity. }
  assert (So : forall n, sortable (repeat no_result n) = true). { intros n. apply sortable_numbers. apply Forall_forall. intros r Hr. apply repeat_spec in Hr. subst r. discriminate. }
  assert (R : exists k, round train sort recordCount (start shuffled) = Ok (Again {| combinations := []; attempt := k; next_search_size := inject_Z (Z.of_N recordCount) |})).
  { unfold round, start. cbn [next_search_size TaskSearch_Model.attempt combinations]. destruct (A (uses_source recordCount 640) shuffled 0%nat []) as (k & ->). cbn [obind app].
    unfold next_combinations. rewrite So. destruct (Hs _ (So (length shuffled))) as [P _].
    assert (Ln : length (sort (repeat no_result (length shuffled))) = length shuffled) by (rewrite (Permutation_length P); apply repeat_length).
    rewrite Ln. destruct (Nat.ltb_spec 1 (length shuffled)) as [_|L]; [|lia]. rewrite filter_none; [exists k; reflexivity|].
    intros p Hi. apply not_true_iff_false. intros X. apply existsb_exists in X as (r & Hr & X). apply same_iff in X as [X _].
    assert (r = no_result) as ->. { eapply repeat_spec. eapply Permutation_in; [exact P|]. rewrite <- (firstn_skipn (if uses_source recordCount 640 then 1%nat else Nat.max (length shuffled / 4) 2)). apply in_or_app. now left. }
    specialize (Hp p Hi). cbn [no_result its fst] in X. lra. }
  destruct R as (k & R). cbn [rounds]. rewrite R. cbn [obind]. unfold round. cbn [next_search_size TaskSearch_Model.attempt combinations attempts obind].
  assert (uses_source recordCount (inject_Z (Z.of_N recordCount)) = true) as ->. { unfold uses_source. apply Qle_bool_iff. lra. }
  unfold next_combinations. cbn [sortable forallb]. destruct (Hs [] eq_refl) as [P _]. assert (sort [] = []) as -> by (apply Permutation_nil; now symmetry). reflexivity.
Qed.

(** ** C81 *)
(** A round that does not find the target keeps the best combinations: a quarter of them but at least two, or
    with the whole data only one; none that it drops did better than one that it keeps. *)
Theorem best_combinations_kept : forall train sort recordCount s, sorts sort -> never_accurate train -> (2 <= length (combinations s))%nat -> distinct (combinations s) ->
  let whole := uses_source recordCount (next_search_size s) in
  exists s', round train sort recordCount s = Ok (Again s') /\ subsequence (combinations s') (combinations s) /\
    length (combinations s') = (if whole then 1 else Nat.max (length (combinations s) / 4) 2)%nat /\ attempt s' = (attempt s + length (combinations s))%nat /\
    forall i j p q a b la lb, nth_error (combinations s) i = Some p -> nth_error (combinations s) j = Some q -> In p (combinations s') -> ~ In q (combinations s') ->
      train (attempt s + 1 + i)%nat whole p = Trained (Some a) la -> train (attempt s + 1 + j)%nat whole q = Trained (Some b) lb ->
      b <= a /\ (b == a -> at_most la lb).
Proof.
  intros train sort recordCount s Hs Ht Hl D whole.
  assert (Hn : combinations s <> []) by (intros Z; rewrite Z in Hl; cbn in Hl; lia).
  destruct (round_again train sort recordCount Hs Ht s Hn) as (l & size & rs & E & _ & Em & P & St & Hr & El). fold whole in Hr, El.
  destruct (Nat.ltb_spec 1 (length (combinations s))) as [_|L]; [|lia]. set (top := if whole then 1%nat else Nat.max (length (combinations s) / 4) 2) in *.
  pose proof (filter_in_firstn _ _ (sort rs) top D Em P) as Q1. rewrite <- El in Q1.
  assert (Ln : length (sort rs) = length (combinations s)) by (rewrite (Permutation_length P), <- Em, map_length; reflexivity).
  assert (Tl : (top <= length (combinations s))%nat). { unfold top. destruct whole; [lia|]. pose proof (Nat.div_le_upper_bound (length (combinations s)) 4 (length (combinations s)) ltac:(lia) ltac:(lia)). lia. }
  eexists. split; [exact E|]. cbn [combinations attempt]. split; [rewrite El; apply subsequence_filter|]. split; [|split; [reflexivity|]].
  { rewrite (Permutation_length Q1), map_length, firstn_length, Ln. lia. }
  intros i j p q a b la lb Hi Hj Hp Hq Ta Tb.
  destruct (Hr i p Hi) as (a' & la' & Ta' & Na). destruct (Hr j q Hj) as (b' & lb' & Tb' & Nb).
  replace (S (attempt s) + i)%nat with (attempt s + 1 + i)%nat in Ta' by lia. rewrite Ta in Ta'. injection Ta' as <- <-.
  replace (S (attempt s) + j)%nat with (attempt s + 1 + j)%nat in Tb' by lia. rewrite Tb in Tb'. injection Tb' as <- <-.
  set (rp := {| accuracy := Some a; final_test_loss := la; its := p |}) in *. set (rq := {| accuracy := Some b; final_test_loss := lb; its := q |}) in *.
  assert (Dn : forall x y, In x (sort rs) -> In y (sort rs) -> its x = its y -> x = y).
  { assert (N : NoDup (map its rs)). { rewrite Em. clear - D. unfold distinct in D. induction D as [|x l F D IH]; constructor; [|exact IH]. intros I. rewrite Forall_forall in F. apply (F x I). split; reflexivity. }
    intros x y Hx Hy Exy. apply (Permutation_in _ P) in Hx, Hy. clear - N Hx Hy Exy. induction rs as [|r rs IH]; [destruct Hx|]. cbn [map] in N. inversion N as [|? ? N1 N2]; subst.
    destruct Hx as [->|Hx], Hy as [->|Hy]; auto; exfalso; apply N1; [rewrite Exy|rewrite <- Exy]; now apply in_map. }
  assert (Ip : In rp (sort rs)). { eapply Permutation_in; [symmetry; exact P|]. eapply nth_error_In. exact Na. }
  assert (Iq : In rq (sort rs)). { eapply Permutation_in; [symmetry; exact P|]. eapply nth_error_In. exact Nb. }
  assert (Fp : In rp (firstn top (sort rs))).
  { apply (Permutation_in _ Q1) in Hp. apply in_map_iff in Hp as (x & Ex & Hx). replace rp with x; [exact Hx|]. apply Dn; [|exact Ip|exact Ex]. rewrite <- (firstn_skipn top). apply in_or_app. now left. }
  assert (Fq : In rq (skipn top (sort rs))).
  { rewrite <- (firstn_skipn top) in Iq. apply in_app_or in Iq as [Iq|Iq]; [|exact Iq]. destruct Hq. apply (Permutation_in _ (Permutation_sym Q1)). apply in_map_iff. exists rq. auto. }
  rewrite <- (firstn_skipn top) in St. pose proof (sorted_app _ _ _ _ St rp rq Fp Fq) as B. exact (proj1 (better_false rq rp b a eq_refl eq_refl) B).
Qed.
(** The whole training data is used once the search could have doubled its share far enough. *)
Theorem whole_data_reached : forall train sort recordCount n shuffled s, rounds train sort recordCount n (start shuffled) = Ok (Again s) ->
  (Z.of_N recordCount <= 640 * 2 ^ Z.of_nat n + 1)%Z -> uses_source recordCount (next_search_size s) = true.
Proof.
  intros train sort recordCount n shuffled s E Hc.
  assert (G : forall n s0 s, rounds train sort recordCount n s0 = Ok (Again s) -> inject_Z (640 * 2 ^ Z.of_nat 0) <= next_search_size s0 ->
    inject_Z (Z.of_N recordCount) <= next_search_size s + 1 \/ next_search_size s0 * inject_Z (2 ^ Z.of_nat n) <= next_search_size s).
  { clear. induction n as [|n IH]; intros s0 s E H0; cbn [rounds] in E.
    - injection E as <-. right. change (2 ^ Z.of_nat 0)%Z with 1%Z. change (inject_Z 1) with 1. lra.
    - destruct (round train sort recordCount s0) as [v| |] eqn:Er; try discriminate. cbn [obind] in E. destruct v as [k|s1]; [discriminate|].
      assert (S1 : inject_Z (Z.of_N recordCount) <= next_search_size s1 \/ next_search_size s1 = next_search_size s0 * 2).
      { unfold round in Er. cbv zeta in Er. destruct (attempts _ _ _ _ _) as [[[k rs] found]| |]; try discriminate. cbn [obind] in Er. destruct found; [discriminate|].
        destruct (next_combinations _ _ _ _) as [l| |]; try discriminate. cbn [obind] in Er. injection Er as <-. cbn [next_search_size]. destruct (_ && _); [now right|left; apply Qle_refl]. }
      assert (Keep : forall m t t', rounds train sort recordCount m t = Ok (Again t') -> 0 <= next_search_size t -> inject_Z (Z.of_N recordCount) <= next_search_size t + 1 -> inject_Z (Z.of_N recordCount) <= next_search_size t' + 1).
      { clear. induction m as [|m IH]; intros t t' E H0 H; cbn [rounds] in E; [injection E as <-; exact H|].
        destruct (round train sort recordCount t) as [v| |] eqn:Er; try discriminate. cbn [obind] in E. destruct v as [k|s1]; [discriminate|]. apply (IH s1 t' E); clear E IH t';
        unfold round in Er; cbv zeta in Er; destruct (attempts _ _ _ _ _) as [[[k rs] found]| |]; try discriminate; cbn [obind] in Er; destruct found; try discriminate;
        destruct (next_combinations _ _ _ _) as [l| |]; try discriminate; cbn [obind] in Er; injection Er as <-; cbn [next_search_size]; destruct (_ && _); try lra.
        - change 0 with (inject_Z 0). rewrite <- Zle_Qle. apply N2Z.is_nonneg. }
      change (640 * 2 ^ Z.of_nat 0)%Z with 640%Z in *. change (inject_Z 640) with 640 in *.
      destruct S1 as [S1|S1].
      + left. apply (Keep n s1 s E); [|lra]. assert (0 <= inject_Z (Z.of_N recordCount)); [|lra]. change 0 with (inject_Z 0). rewrite <- Zle_Qle. apply N2Z.is_nonneg.
      + destruct (IH s1 s E) as [A|A]; [rewrite S1; lra|now left|]. right. rewrite S1 in A. rewrite Nat2Z.inj_succ, Z.pow_succ_r, inject_Z_mult by apply Nat2Z.is_nonneg. change (inject_Z 2) with 2. lra. }
  destruct (G n (start shuffled) s E) as [A|A]; [change (640 * 2 ^ Z.of_nat 0)%Z with 640%Z; apply Qle_refl|now apply Qle_bool_iff|].
  unfold uses_source. apply Qle_bool_iff. cbn [start next_search_size] in A. rewrite Zle_Qle, inject_Z_plus, inject_Z_mult in Hc. change (inject_Z 640) with 640 in Hc. change (inject_Z 1) with 1 in Hc. lra.
Qed.

(** ** Examples *)
(** A sort that keeps the promise: insertion. *)
Fixpoint insert (r : result) (l : list result) : list result :=
  match l with [] => [r] | x :: l => if better x r then x :: insert r l else r :: x :: l end.
Definition insertion_sort (l : list result) : list result := fold_right insert [] l.
Lemma insert_perm : forall r l, Permutation (insert r l) (r :: l).
Proof. intros r l. induction l as [|x l IH]; cbn [insert]; auto. destruct (better x r); auto. rewrite IH. apply perm_swap. Qed.
Lemma insertion_perm : forall l, Permutation (insertion_sort l) l.
Proof. induction l as [|r l IH]; cbn [insertion_sort fold_right]; auto. etransitivity; [apply insert_perm|]. now constructor. Qed.
Lemma insertion_sorts : sorts insertion_sort.
Proof.
  intros l Hs. split; [apply insertion_perm|]. unfold sortable in Hs. rewrite forallb_forall in Hs.
  assert (Irr : forall a, In a l -> better a a = false). { intros a Ha. apply Hs in Ha. apply andb_true_iff in Ha as [T _]. unfold tied in T. rewrite andb_diag, negb_true_iff in T. exact T. }
  assert (Tr : forall a b c, In a l -> In b l -> In c l -> better a b = true -> better b c = true -> better a c = true).
  { intros a b c Ha Hb Hc A B. apply Hs in Ha. apply andb_true_iff in Ha as [_ T]. rewrite forallb_forall in T. apply T in Hb. rewrite forallb_forall in Hb. apply Hb in Hc. apply andb_true_iff in Hc as [Hc _]. rewrite A, B in Hc. exact Hc. }
  assert (Ti : forall a b c, In a l -> In b l -> In c l -> better b a = false -> better a b = false -> better c b = false -> better b c = false -> better c a = false).
  { intros a b c Ha Hb Hc A B C D. apply Hs in Ha. apply andb_true_iff in Ha as [_ T]. rewrite forallb_forall in T. apply T in Hb. rewrite forallb_forall in Hb. apply Hb in Hc. apply andb_true_iff in Hc as [_ Hc].
    unfold tied in Hc. rewrite A, B, C, D in Hc. cbn in Hc. apply andb_true_iff in Hc as [_ Hc]. now apply negb_true_iff in Hc. }
  assert (As : forall a b, In a l -> In b l -> better a b = true -> better b a = false).
  { intros a b Ha Hb A. apply not_true_iff_false. intros B. specialize (Tr a b a Ha Hb Ha A B). rewrite (Irr a Ha) in Tr. discriminate. }
  (* not better is transitive *)
  assert (Nb : forall a b c, In a l -> In b l -> In c l -> better b a = false -> better c b = false -> better c a = false).
  { intros a b c Ha Hb Hc A B. destruct (better a b) eqn:C, (better b c) eqn:D.
    - apply As; auto. now apply (Tr a b c).
    - apply not_true_iff_false. intros E. assert (better c b = true) by now apply (Tr c a b). congruence.
    - apply not_true_iff_false. intros E. assert (better b a = true) by now apply (Tr b c a). congruence.
    - now apply (Ti a b c). }
  clear Hs. assert (G : forall m, incl m l -> StronglySorted (fun a b => better b a = false) (insertion_sort m)); [|apply G, incl_refl].
  induction m as [|r m IH]; intros Hm; cbn [insertion_sort fold_right]; [constructor|]. assert (Hr : In r l) by (apply Hm; now left).
  assert (Hm' : incl (insertion_sort m) l). { intros x Hx. apply Hm. right. eapply Permutation_in; [apply insertion_perm|exact Hx]. }
  specialize (IH (fun x Hx => Hm x (or_intror Hx))). fold (insertion_sort m). clear Hm. induction IH as [|x s Hs IH F]; cbn [insert]; [repeat constructor|].
  assert (Hx : In x l) by (apply Hm'; now left). assert (Hs' : incl s l) by (intros y Hy; apply Hm'; now right). rewrite Forall_forall in F. destruct (better x r) eqn:E.
  - constructor; [now apply IH|]. apply Forall_forall. intros y Hy. apply (Permutation_in _ (insert_perm r s)) in Hy as [<-|Hy]; [now apply As|now apply F].
  - constructor; [constructor; [exact Hs|now apply Forall_forall]|]. constructor; [exact E|]. apply Forall_forall. intros y Hy. apply (Nb r x y); auto.
Qed.
(** Every attempt has an accuracy of one half: 192 combinations, then 48, and it never ends. *)
Definition half_right (k : nat) (whole : bool) (p : combination) : fate := Trained (Some (1 # 2)) (Some (snd p)).
Lemma half_right_never : never_accurate half_right.
Proof. intros k whole p. exists (1 # 2), (Some (snd p)). split; [reflexivity|]. intros _. unfold target_accuracy, Qlt. cbn. lia. Qed.
Example half_right_forever : forall n, exists s, rounds half_right insertion_sort 50000 n (start (grid false)) = Ok (Again s) /\ (n <= attempt s)%nat.
Proof. apply search_ends_refuted; [apply insertion_sorts|apply half_right_never|discriminate]. Qed.
Example half_right_first_round : exists s', round half_right insertion_sort 50000 (start (grid false)) = Ok (Again s') /\ length (combinations s') = 48%nat.
Proof.
  destruct (grid_is_distinct false) as (D & L & _). destruct (best_combinations_kept half_right insertion_sort 50000 (start (grid false)) insertion_sorts half_right_never) as (s' & E & _ & Ls & _).
  - cbn [start combinations]. rewrite L. lia.
  - exact D.
  - exists s'. split; [exact E|]. rewrite Ls. cbn [start combinations]. rewrite L. reflexivity.
Qed.
(** With one combination that works on the whole data it ends. *)
Example found_in_the_second_round : rounds (fun k whole p => Trained (Some (if (k =? 5)%nat then 1 else 0)) None) insertion_sort 1000 3 (start [(1, 0); (2, 0); (3, 0)]) = Ok (Save 5).
Proof. reflexivity. Qed.
Example all_fail : rounds (fun _ _ _ => Failed) insertion_sort 50000 2 (start (grid true)) = UB.
Proof. apply search_after_failures_refuted; [apply insertion_sorts|reflexivity| |apply grid_is_distinct]. destruct (grid_is_distinct true) as (_ & -> & _). lia. Qed.
(** After a round with a single combination, the same one is tried twice when its rate factor is 0. *)
Example tried_twice : nth_error (nearby (1, 0)) 0 = Some (1, 0) /\ exists p, nth_error (nearby (1, 0)) 7 = Some p /\ same p (1, 0) = true.
Proof. split; [reflexivity|]. eexists. split; reflexivity. Qed.

Print Assumptions grid_is_distinct.
Print Assumptions search_ends_accurate_partial.
Print Assumptions search_ends_refuted.
Print Assumptions search_after_failures_refuted.
Print Assumptions best_combinations_kept.
Print Assumptions whole_data_reached.
