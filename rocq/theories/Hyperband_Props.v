(** C58: the search for hyperparameters. *)
From Coq Require Import List Arith ZArith Bool Permutation Lia.
From Verif Require Import Outcome Hyperband_Model.
Import ListNotations.

(** [m1] is at least as good as [m2]. *)
Definition at_least_as_good (minimize : bool) (m1 m2 : Z) : Prop := if minimize then (m1 <= m2)%Z else (m2 <= m1)%Z.
(** The evaluation at the best metric of those made. *)
Definition is_best (minimize : bool) (metric : nat -> nat -> Z) (log : list (nat * nat)) (c : nat) (m : Z) : Prop :=
  (exists r, In (r, c) log /\ metric r c = m) /\ forall r c', In (r, c') log -> at_least_as_good minimize m (metric r c').

Lemma better_spec : forall mi x y, better mi x y = true <-> ~ at_least_as_good mi y x.
Proof. intros [] x y; cbn; lia. Qed.
Lemma alag_trans : forall mi x y z, at_least_as_good mi x y -> at_least_as_good mi y z -> at_least_as_good mi x z.
Proof. intros [] x y z; cbn; lia. Qed.
Lemma alag_total : forall mi x y, at_least_as_good mi x y \/ at_least_as_good mi y x.
Proof. intros [] x y; cbn; lia. Qed.
Lemma alag_refl : forall mi x, at_least_as_good mi x x.
Proof. intros [] x; cbn; lia. Qed.
Lemma worse_spec : forall mi x y, goes_first mi x y = false <-> at_least_as_good mi x y.
Proof. intros [] x y; cbn; lia. Qed.

Definition best_so_far (minimize : bool) (metric : nat -> nat -> Z) (log : list (nat * nat)) (best : option (nat * Z)) : Prop :=
  match best with None => log = [] | Some (c, m) => is_best minimize metric log c m end.
Lemma evaluate_all_best : forall mi metric round order log best, best_so_far mi metric log best ->
  best_so_far mi metric (log ++ map (pair round) order) (evaluate_all mi (metric round) order best).
Proof.
  intros mi metric round order. induction order as [|c order IH]; intros log best H; [now rewrite app_nil_r|].
  cbn [map evaluate_all fold_left]. replace (log ++ (round, c) :: map (pair round) order) with ((log ++ [(round, c)]) ++ map (pair round) order) by (rewrite <- app_assoc; reflexivity).
  apply IH. clear IH. unfold update_best. destruct best as [[b m]|]; cbn [best_so_far] in *.
  - destruct H as [(r & Hr & Em) Hb]. destruct (better mi (metric round c) m) eqn:E; cbn [best_so_far].
    + apply better_spec in E. split; [exists round; split; [apply in_or_app; right; now left|reflexivity]|]. intros r' c' H. apply in_app_or in H as [H|[H|[]]]; [|injection H as <- <-; apply alag_refl].
      specialize (Hb r' c' H). destruct (alag_total mi m (metric round c)) as [G|G]; [contradiction|]. now apply (alag_trans mi _ m).
    + split; [exists r; split; [apply in_or_app; now left|exact Em]|]. intros r' c' H. apply in_app_or in H as [H|[H|[]]]; [now apply Hb|]. injection H as <- <-.
      destruct (alag_total mi m (metric round c)) as [G|G]; [exact G|]. assert (N : ~ ~ at_least_as_good mi m (metric round c)) by (intros N; apply better_spec in N; congruence). destruct mi; cbn in *; lia.
  - subst log. split; [exists round; split; [now left|reflexivity]|]. intros r' c' [H|[]]. injection H as <- <-. apply alag_refl.
Qed.
Lemma search_best : forall factor mi target metric round configs best rounds log result, search factor mi target metric round configs best rounds log result ->
  forall before, best_so_far mi metric before best -> best_so_far mi metric (before ++ log) result.
Proof.
  intros factor mi target metric round configs best rounds log result H. induction H as [round configs best Hl|round configs best order Hl Hp Hg|round configs best order n kept rest rounds log result Hl Hp Hg Hn Hs H IH]; intros before Hb.
  - now rewrite app_nil_r.
  - now apply evaluate_all_best.
  - rewrite app_assoc. apply IH. now apply evaluate_all_best.
Qed.

(** The model that is returned is one with the best metric of all those that were trained, in whatever
    order they finished; every configuration is trained in the first round. *)
(** Partial, C73: at least two configurations; with one it is refuted. *)
Theorem the_best_model_is_returned_partial : forall factor minimize target metric configs log result, run factor minimize target metric configs log result -> 2 <= length configs ->
  (forall c, In c configs -> In (0, c) log) /\ exists c m, result = Some c /\ is_best minimize metric log c m.
Proof.
  intros factor mi target metric configs log result (rounds & best & H & ->) Hl.
  assert (First : forall c, In c configs -> In (0, c) log).
  { intros c Hc. inversion H as [? ? ? L|? ? ? order L Hp|? ? ? order n kept rest k log' res L Hp]; subst; [lia|apply in_map; now apply (Permutation_in c Hp)|]. apply in_or_app. left. apply in_map. now apply (Permutation_in c Hp). }
  split; [exact First|]. pose proof (search_best _ _ _ _ _ _ _ _ _ _ H [] eq_refl) as B. cbn [app] in B. destruct best as [[c m]|]; [exists c, m; split; [reflexivity|exact B]|].
  cbn in B. subst log. destruct configs as [|c configs]; [cbn in Hl; lia|]. destruct (First c). now left.
Qed.

(** With a single configuration nothing is trained and null is returned. *)
Theorem single_configuration_refuted : forall factor minimize target metric c log result, run factor minimize target metric [c] log result -> log = [] /\ result = None.
Proof. intros factor mi target metric c log result (rounds & best & H & ->). inversion H; subst; cbn in *; try lia. split; reflexivity. Qed.

(** ** Elimination (refuted) *)
(** Each round keeps the configurations with the worst metrics. *)
Theorem elimination_keeps_the_worst_refuted : forall minimize metric n l kept rest, partially_sorted minimize metric n l kept rest ->
  forall a b, In a kept -> In b rest -> at_least_as_good minimize (metric b) (metric a).
Proof. intros mi metric n l kept rest (_ & _ & _ & H) a b Ha Hb. apply worse_spec. now apply H. Qed.
(** So of configurations with different metrics, the best one never survives a round. *)
Theorem the_best_is_eliminated_refuted : forall minimize metric n l kept rest best, partially_sorted minimize metric n l kept rest -> n < length l -> NoDup l -> In best l ->
  (forall c, In c l -> c <> best -> better minimize (metric best) (metric c) = true) -> ~ In best kept.
Proof.
  intros mi metric n l kept rest best (Hp & Hn & _ & H) Hl Nd Hb Hbest Hk. assert (Hr : rest <> []). { intros ->. apply Permutation_length in Hp. rewrite app_nil_r in Hp. lia. }
  destruct rest as [|c rest]; [contradiction|]. assert (Nd' : NoDup (kept ++ c :: rest)) by (apply (Permutation_NoDup Hp Nd)).
  assert (Hc : In c l) by (apply (Permutation_in c (Permutation_sym Hp)), in_or_app; right; now left).
  assert (N : c <> best). { intros ->. apply NoDup_remove_2 in Nd'. apply Nd', in_or_app. now left. }
  specialize (Hbest c Hc N). apply better_spec in Hbest. apply Hbest. apply worse_spec. apply H; [exact Hk|now left].
Qed.

(** ** The search ends *)
Lemma number_kept_ok : forall n factor, (2 <= factor)%Z -> exists k, number_kept n factor = Ok k /\ 2 * k <= n.
Proof.
  intros n factor Hf. unfold number_kept. destruct (Z.eqb_spec factor 0); [lia|]. rewrite Z.quot_div_nonneg by lia.
  assert (P : (0 <= Z.of_nat n / factor)%Z) by (apply Z.div_pos; lia). destruct (Z.ltb_spec (Z.of_nat n / factor) 0); [lia|]. exists (Z.to_nat (Z.of_nat n / factor)). split; [reflexivity|].
  assert (Q : (factor * (Z.of_nat n / factor) <= Z.of_nat n)%Z) by (apply Z.mul_div_le; lia). nia.
Qed.
(** With a factor of at least 2 the search never gets stuck, and it takes at most log2 of the number
    of configurations rounds. *)
Theorem search_rounds : forall factor minimize target metric round configs best rounds log result, (2 <= factor)%Z ->
  search factor minimize target metric round configs best rounds log result -> 2 ^ rounds <= Nat.max 1 (length configs).
Proof.
  intros factor mi target metric round configs best rounds log result Hf H. induction H as [round configs best Hl|round configs best order Hl Hp Hg|round configs best order n kept rest rounds log result Hl Hp Hg Hn Hs H IH]; [change (2 ^ 0) with 1; lia|change (2 ^ 1) with 2; lia|].
  destruct (number_kept_ok (length configs) factor Hf) as (k & Ek & Hk). rewrite Ek in Hn. injection Hn as ->. destruct Hs as (_ & Hs & _). rewrite Hs in IH. change (2 ^ S rounds) with (2 * 2 ^ rounds). set (x := 2 ^ rounds) in *. clearbody x. clear - IH Hk Hl. lia.
Qed.

Fixpoint insert (cmp : nat -> nat -> bool) (x : nat) (l : list nat) : list nat := match l with [] => [x] | y :: r => if cmp y x then y :: insert cmp x r else x :: l end.
Definition isort (cmp : nat -> nat -> bool) (l : list nat) : list nat := fold_right (insert cmp) [] l.
Lemma insert_perm : forall cmp x l, Permutation (x :: l) (insert cmp x l).
Proof. intros cmp x l. induction l as [|y l IH]; [reflexivity|]. cbn. destruct (cmp y x); [|reflexivity]. rewrite perm_swap. now constructor. Qed.
Lemma isort_perm : forall cmp l, Permutation l (isort cmp l).
Proof. intros cmp l. induction l as [|x l IH]; [reflexivity|]. cbn. rewrite <- insert_perm. now constructor. Qed.
Section Sorted.
Context (mi : bool) (metric : nat -> Z).
Definition ordered (a b : nat) : Prop := at_least_as_good mi (metric b) (metric a).
Lemma insert_sorted : forall x l, ForallOrdPairs ordered l -> ForallOrdPairs ordered (insert (fun y x => goes_first mi (metric y) (metric x)) x l).
Proof.
  intros x l H. induction H as [|y l Hy H IH]; [constructor; [constructor|constructor]|]. cbn [insert]. destruct (goes_first mi (metric y) (metric x)) eqn:E.
  - constructor; [|exact IH]. apply Forall_forall. intros z Hz. apply (Permutation_in z (Permutation_sym (insert_perm _ x l))) in Hz. destruct Hz as [<-|Hz]; [unfold ordered; destruct mi; cbn in *; lia|]. rewrite Forall_forall in Hy. now apply Hy.
  - apply worse_spec in E. constructor; [|now constructor]. constructor; [exact E|]. rewrite Forall_forall in *. intros z Hz. unfold ordered in *. specialize (Hy z Hz). now apply (alag_trans mi _ (metric y)).
Qed.
Lemma isort_sorted : forall l, ForallOrdPairs ordered (isort (fun y x => goes_first mi (metric y) (metric x)) l).
Proof. intros l. induction l as [|x l IH]; [constructor|]. cbn. now apply insert_sorted. Qed.
Lemma fop_nth : forall l, ForallOrdPairs ordered l -> forall i j a b, i < j -> nth_error l i = Some a -> nth_error l j = Some b -> ordered a b.
Proof.
  intros l H. induction H as [|x l Hx H IH]; intros [|i] [|j] a b Hij Ha Hb; try discriminate; try lia; cbn in *.
  - injection Ha as <-. rewrite Forall_forall in Hx. apply Hx. now apply (nth_error_In _ j).
  - apply (IH i j); [lia|assumption|assumption].
Qed.
Lemma partial_sort_exists : forall n l, n <= length l -> exists kept rest, partially_sorted mi metric n l kept rest.
Proof.
  intros n l Hn. set (s := isort (fun y x => goes_first mi (metric y) (metric x)) l). exists (firstn n s), (skipn n s).
  assert (Pm : Permutation l s) by apply isort_perm. assert (Ls : length s = length l) by (symmetry; now apply Permutation_length). pose proof (fop_nth _ (isort_sorted l)) as F. fold s in F.
  assert (L1 : length (firstn n s) = n) by (rewrite firstn_length; lia). assert (Sp : firstn n s ++ skipn n s = s) by apply firstn_skipn.
  split; [now rewrite Sp|]. split; [exact L1|]. split.
  - intros i j a b Hij Ha Hb. apply worse_spec. apply (F i j); [exact Hij| |].
    + rewrite <- Sp, nth_error_app1; [exact Ha|]. apply nth_error_Some. congruence.
    + rewrite <- Sp, nth_error_app1; [exact Hb|]. apply nth_error_Some. congruence.
  - intros a b Ha Hb. apply worse_spec. apply In_nth_error in Ha as [i Ha]. apply In_nth_error in Hb as [j Hb]. assert (Hi : i < n) by (rewrite <- L1; apply nth_error_Some; congruence).
    apply (F i (n + j)); [lia| |].
    + rewrite <- Sp, nth_error_app1; [exact Ha|lia].
    + rewrite <- Sp, nth_error_app2 by lia. rewrite L1. replace (n + j - n) with j by lia. exact Hb.
Qed.
End Sorted.
(** Partial, C58: factors from 2 on; that the best are kept is refuted. *)
Theorem search_ends_partial : forall factor minimize target metric configs, (2 <= factor)%Z -> exists log result, run factor minimize target metric configs log result.
Proof.
  intros factor mi target metric configs Hf. enough (H : forall n round configs best, length configs <= n -> exists rounds log result, search factor mi target metric round configs best rounds log result).
  { destruct (H (length configs) 0 configs None) as (rounds & log & result & G); [lia|]. exists log, (option_map fst result), rounds, result. now split. }
  intros n. induction n as [|n IH]; intros round cs best Hl; [exists 0, [], best; constructor; lia|].
  destruct (le_lt_dec (length cs) 1) as [L|L]; [exists 0, [], best; now constructor|].
  destruct (good_enough mi target (evaluate_all mi (metric round) cs best)) eqn:E; [do 3 eexists; apply search_early; [exact L|apply Permutation_refl|exact E]|].
  destruct (number_kept_ok (length cs) factor Hf) as (k & Ek & Hk). destruct (partial_sort_exists mi (metric round) k cs) as (kept & rest & P); [lia|].
  destruct (IH (S round) kept (evaluate_all mi (metric round) cs best)) as (rounds & log & result & G); [destruct P as (_ & P & _); lia|].
  do 3 eexists. eapply search_next; [exact L|apply Permutation_refl|exact E|exact Ek|exact P|exact G].
Qed.
(** With a factor of 1 it never ends, unless the target is met; with a factor below 1 the behaviour is
    undefined. *)
Theorem search_with_factor_one_refuted : forall minimize target metric configs, 2 <= length configs -> (forall round c, better minimize (metric round c) target = false) ->
  forall log result, ~ run 1 minimize target metric configs log result.
Proof.
  intros mi target metric configs0 Hl0 Ht log0 result0 (rounds0 & best0 & H0 & _).
  assert (Step : forall round order b, good_enough mi target b = false -> good_enough mi target (evaluate_all mi (metric round) order b) = false).
  { intros round order. induction order as [|c order IH]; intros b Hb; [exact Hb|]. cbn. apply IH. unfold update_best. destruct b as [[c' m]|]; [|apply Ht]. destruct (better mi (metric round c) m); [apply Ht|exact Hb]. }
  enough (All : forall round configs b rounds log result, search 1 mi target metric round configs b rounds log result -> good_enough mi target b = false -> 1 < length configs -> False) by (apply (All _ _ _ _ _ _ H0); [reflexivity|exact Hl0]).
  clear - Ht Step. intros round configs b rounds log result H.
  induction H as [round configs best Hl|round configs best order Hl Hp Hg|round configs best order n kept rest rounds log result Hl Hp Hg Hn Hs H IH]; intros G L; [lia|rewrite Step in Hg by exact G; discriminate|].
  apply IH; [now apply Step|]. destruct Hs as (_ & Hs & _). unfold number_kept in Hn. cbn [Z.eqb] in Hn. rewrite Z.quot_1_r in Hn. destruct (Z.ltb_spec (Z.of_nat (length configs)) 0); [lia|]. rewrite Nat2Z.id in Hn. injection Hn as Hn. lia.
Qed.
Theorem factor_below_one : forall n factor, (factor <= 0)%Z -> (- factor <= Z.of_nat n)%Z -> number_kept n factor = UB.
Proof.
  intros n factor Hf Hn. unfold number_kept. destruct (Z.eqb_spec factor 0) as [E|E]; [reflexivity|]. assert (Q : (Z.quot (Z.of_nat n) factor < 0)%Z).
  { replace factor with (- (- factor))%Z by lia. rewrite Z.quot_opp_r by lia. rewrite Z.quot_div_nonneg by lia. assert (1 <= Z.of_nat n / - factor)%Z by (apply Z.div_le_lower_bound; lia). lia. }
  destruct (Z.ltb_spec (Z.quot (Z.of_nat n) factor) 0); [reflexivity|lia].
Qed.

(** ** Choosing the configurations *)
(** The batch sizes that are left are exactly those that fit, and one. *)
Lemma remove_large_ok : forall fuel max p l, length l < fuel -> Forall (fun b => b <= max \/ b <= 1)%Z p ->
  remove_large fuel (length p) max (p ++ l) = p ++ filter (fun b => (b <=? max) || (b <=? 1))%Z l.
Proof.
  induction fuel as [|fuel IH]; intros max p l Hf Hp; [lia|]. cbn [remove_large]. rewrite nth_error_app2 by lia. rewrite Nat.sub_diag. destruct l as [|b l]; [reflexivity|]. cbn [nth_error filter length] in *.
  destruct (((max <? b) && (1 <? b))%Z) eqn:E.
  - replace (((b <=? max) || (b <=? 1))%Z) with false by lia. rewrite firstn_app, Nat.sub_diag, firstn_all. cbn [firstn]. rewrite app_nil_r. rewrite skipn_app.
    replace (skipn (S (length p)) p) with (@nil Z) by (symmetry; apply skipn_all2; lia). replace (S (length p) - length p) with 1 by lia. cbn [skipn app]. apply IH; [lia|exact Hp].
  - replace (((b <=? max) || (b <=? 1))%Z) with true by lia. replace (p ++ b :: l) with ((p ++ [b]) ++ l) by (rewrite <- app_assoc; reflexivity). replace (S (length p)) with (length (p ++ [b])) by (rewrite app_length; cbn; lia).
    rewrite IH; [now rewrite <- app_assoc|lia|]. apply Forall_app. split; [exact Hp|]. constructor; [lia|constructor].
Qed.
Theorem batch_sizes_fit : forall max l fuel, length l < fuel -> remove_large fuel 0 max l = filter (fun b => (b <=? max) || (b <=? 1))%Z l.
Proof. intros max l fuel Hf. apply (remove_large_ok fuel max [] l Hf). constructor. Qed.

(** The configurations are different, unless a thousand draws in a row were used before. *)
Theorem configurations_are_different : forall {A} (eqb : A -> A -> bool), (forall x y, eqb x y = true <-> x = y) ->
  forall used draws c rest, generate eqb used draws = Some (c, rest) -> In c used -> exists seen, draws = seen ++ rest /\ length seen = 1001 /\ forall d, In d seen -> In d used.
Proof.
  intros A eqb Heq used draws c rest H Hc. unfold generate in H. destruct draws as [|d draws]; [discriminate|].
  assert (R : forall attempts d draws, redraw eqb used attempts d draws = Some (c, rest) -> exists seen, d :: draws = seen ++ rest /\ length seen = S attempts /\ forall d, In d seen -> In d used).
  { clear - Heq Hc. assert (U : forall x, existsb (eqb x) used = true <-> In x used). { intros x. rewrite existsb_exists. split; [intros (y & Hy & E); apply Heq in E; now subst|intros Hx; exists x; split; [exact Hx|now apply Heq]]. }
    intros attempts. induction attempts as [|attempts IH]; intros d draws H; cbn [redraw] in H.
    - destruct (existsb (eqb d) used) eqn:E; [destruct draws; discriminate|]. injection H as -> ->. apply U in Hc. congruence.
    - destruct (existsb (eqb d) used) eqn:E; [|injection H as -> ->; apply U in Hc; congruence]. apply U in E. destruct draws as [|d' draws]; [discriminate|]. destruct attempts as [|attempts].
      + injection H as -> ->. exists [d; c]. split; [reflexivity|]. split; [reflexivity|]. intros x [<-|[<-|[]]]; assumption.
      + destruct (IH d' draws H) as (seen & E1 & E2 & E3). exists (d :: seen). split; [cbn; now rewrite <- E1|]. split; [cbn; now rewrite E2|]. intros x [<-|Hx]; auto. }
  now apply R in H.
Qed.

(** ** Examples *)
(** All the configurations generated are different from each other and from those already used, unless one of
    them was drawn after a thousand other draws that had all been used before. *)
Theorem all_configurations_different : forall {A} (eqb : A -> A -> bool), (forall x y, eqb x y = true <-> x = y) ->
  forall n used draws cs, generate_all eqb n used draws = Some cs -> NoDup used ->
  length cs = n /\ (NoDup (rev cs ++ used) \/ exists seen before, length seen = 1001 /\ (exists a b, draws = a ++ seen ++ b) /\ (forall d, In d seen -> In d before) /\ forall d, In d before -> In d used \/ In d cs).
Proof.
  intros A eqb Heq n. induction n as [|n IH]; intros used draws cs H N; cbn [generate_all] in H.
  - injection H as <-. split; [reflexivity|]. now left.
  - destruct (generate eqb used draws) as [[c rest]|] eqn:E; [|discriminate]. destruct (generate_all eqb n (c :: used) rest) as [cs'|] eqn:E'; [|discriminate]. cbn [option_map] in H. injection H as <-.
    assert (T : exists taken, draws = taken ++ rest).
    { clear - E. unfold generate in E. destruct draws as [|d draws]; [discriminate|]. revert d draws E. generalize 1000. induction n as [|n IH]; intros d draws E; cbn [redraw] in E; destruct (existsb (eqb d) used).
      - destruct draws; discriminate.
      - injection E as -> ->. now exists [c].
      - destruct draws as [|d' draws]; [discriminate|]. destruct n as [|n]; [injection E as -> ->; now exists [d; c]|]. destruct (IH d' draws E) as [t ->]. now exists (d :: t).
      - injection E as -> ->. now exists [c]. }
    destruct T as [taken T].
    assert (D : In c used \/ ~ In c used).
    { destruct (existsb (eqb c) used) eqn:X; [left|right].
      - apply existsb_exists in X as (y & Hy & Q). apply Heq in Q. now subst.
      - intros Hc. assert (existsb (eqb c) used = true) by (apply existsb_exists; exists c; split; [exact Hc|now apply Heq]). congruence. }
    destruct D as [D|D].
    + destruct (configurations_are_different eqb Heq used draws c rest E D) as (seen & E1 & E2 & E3).
      assert (LL : length cs' = n).
      { clear - E'. revert used c rest cs' E'. induction n as [|n IH]; intros used c rest cs' E'; cbn [generate_all] in E'; [now injection E' as <-|]. destruct (generate eqb (c :: used) rest) as [[c2 r2]|]; [|discriminate].
        destruct (generate_all eqb n (c2 :: c :: used) r2) as [l|] eqn:X; [|discriminate]. cbn [option_map] in E'. injection E' as <-. cbn [length]. f_equal. exact (IH _ _ _ _ X). }
      split; [cbn [length]; now rewrite LL|]. right. exists seen, used. split; [exact E2|]. split; [exists [], rest; exact E1|]. split; [exact E3|]. now left.
    + destruct (IH (c :: used) rest cs' E' ltac:(now constructor)) as [LL [P|(seen & before & P1 & (a & b & P2) & P3 & P4)]]; (split; [cbn [length]; now rewrite LL|]).
      * left. cbn [rev]. rewrite <- app_assoc. exact P.
      * right. exists seen, before. split; [exact P1|]. split; [exists (taken ++ a), b; rewrite T, P2, <- app_assoc; reflexivity|]. split; [exact P3|]. intros x Hx. destruct (P4 x Hx) as [[<-|Hu]|Hc]; [right; now left|now left|right; now right].
Qed.
(** No more configurations are asked for than there are. *)
Theorem configurations_fit : forall asked space, number_of_configurations asked space <= space.
Proof. intros [n|] space; unfold number_of_configurations; cbv zeta; [destruct (Nat.leb_spec n space); lia|lia]. Qed.
(** As many as asked for, when there are that many. *)
Theorem configurations_as_asked : forall n space, n <= space -> number_of_configurations (Some n) space = n.
Proof. intros n space H. unfold number_of_configurations. cbv zeta. destruct (Nat.leb_spec n space); [reflexivity|lia]. Qed.
Example ex_all_different : exists cs, generate_all Nat.eqb 3 [7] [1; 7; 2; 1; 2; 7; 3] = Some cs /\ cs = [1; 2; 3].
Proof. eexists. split; reflexivity. Qed.
(** Three configurations to minimize: 0 has metric 10, 1 has 30, 2 has 20. *)
Definition losses (r c : nat) : Z := match c with 0 => 10%Z | 1 => 30%Z | _ => 20%Z end.
Example three_eliminated : partially_sorted true (losses 0) 1 [0; 1; 2] [1] [0; 2].
Proof.
  split; [apply perm_swap|]. split; [reflexivity|]. split.
  - intros [|i] [|j] a b Hij Ha Hb; try lia; cbn in *; try discriminate; [destruct j; discriminate|destruct i; discriminate].
  - intros a b [<-|[]] [<-|[<-|[]]]; reflexivity.
Qed.
Example three_run : run 2 true 5 losses [0; 1; 2] [(0, 0); (0, 1); (0, 2)] (Some 0).
Proof.
  exists 1, (Some (0, 10%Z)). split; [|reflexivity]. change [(0, 0); (0, 1); (0, 2)] with (map (pair 0) [0; 1; 2] ++ []).
  eapply search_next with (order := [0; 1; 2]) (n := 1) (kept := [1]) (rest := [0; 2]); [cbn; lia|reflexivity|reflexivity|reflexivity|apply three_eliminated|]. apply search_done. cbn. lia.
Qed.
Example batch_sizes : remove_large 8 0 100 [32; 64; 128; 1; 256; 512; 1024]%Z = [32; 64; 1]%Z.
Proof. reflexivity. Qed.

Print Assumptions the_best_model_is_returned_partial.
Print Assumptions single_configuration_refuted.
Print Assumptions elimination_keeps_the_worst_refuted.
Print Assumptions the_best_is_eliminated_refuted.
Print Assumptions search_rounds.
Print Assumptions search_ends_partial.
Print Assumptions search_with_factor_one_refuted.
Print Assumptions factor_below_one.
Print Assumptions batch_sizes_fit.
Print Assumptions configurations_are_different.
Print Assumptions all_configurations_different.
Print Assumptions configurations_fit.
Print Assumptions configurations_as_asked.
