From Coq Require Import List Arith Bool Lia.
From Verif Require Import Outcome Graph_Model Graph_Spec Graph_Forward Graph_Props.
Import ListNotations.

(** ** Counting the calls of [apply] *)
Notation cnt := (count_occ Nat.eq_dec).
Definition one (b : bool) : nat := if b then 1 else 0.
Lemma cnt_flat_map : forall (f : nat -> list nat) l v, cnt (flat_map f l) v = list_sum (map (fun x => cnt (f x) v) l).
Proof. intros f l v. induction l as [|x l IH]; [reflexivity|]. cbn [flat_map map]. rewrite count_occ_app, IH. reflexivity. Qed.
Lemma cnt_cons : forall o l v, cnt (o :: l) v = one (Nat.eqb o v) + cnt l v.
Proof. intros o l v. cbn. destruct (Nat.eq_dec o v) as [->|N]; [rewrite Nat.eqb_refl; reflexivity|]. apply Nat.eqb_neq in N. now rewrite N. Qed.
Lemma sum_ext : forall {A} (f h : A -> nat) l, (forall x, In x l -> f x = h x) -> list_sum (map f l) = list_sum (map h l).
Proof. intros A f h l H. f_equal. apply map_ext_in, H. Qed.
Lemma sum_add : forall {A} (f h : A -> nat) l, list_sum (map (fun x => f x + h x) l) = list_sum (map f l) + list_sum (map h l).
Proof. intros A f h l. induction l as [|x l IH]; [reflexivity|]. cbn [map list_sum fold_right] in *. unfold list_sum in *. cbn. lia. Qed.
Lemma sum_zero : forall {A} (l : list A), list_sum (map (fun _ => 0) l) = 0.
Proof. intros A l. induction l; [reflexivity|]. assumption. Qed.
Lemma sum_swap : forall {A B} (f : A -> B -> nat) l m, list_sum (map (fun x => list_sum (map (f x) m)) l) = list_sum (map (fun y => list_sum (map (fun x => f x y) l)) m).
Proof.
  intros A B f l m. induction l as [|x l IH]; cbn [map].
  - symmetry. apply (sum_zero m).
  - change (list_sum (map (f x) m) + list_sum (map (fun x => list_sum (map (f x) m)) l) = list_sum (map (fun y => f x y + list_sum (map (fun x => f x y) l)) m)).
    rewrite sum_add. now rewrite IH.
Qed.
Lemma sum_filter : forall (p q : nat -> bool) l, list_sum (map (fun c => one (q c)) (filter p l)) = list_sum (map (fun c => one (p c && q c)) l).
Proof. intros p q l. induction l as [|x l IH]; [reflexivity|]. cbn [filter map]. destruct (p x); cbn [map andb]; cbn; unfold list_sum in *; lia. Qed.
Lemma links : forall g o v, list_sum (map (fun c => one (Nat.eqb (from g c) v)) (ins g o)) = list_sum (map (fun d => one (Nat.eqb o (to g d))) (outs g v)).
Proof.
  intros g o v. unfold ins, outs. rewrite !sum_filter. apply sum_ext. intros c _. f_equal. rewrite (Nat.eqb_sym o). apply andb_comm.
Qed.
Lemma sum_one_le : forall l v, NoDup l -> list_sum (map (fun o => one (Nat.eqb o v)) l) = one (existsb (Nat.eqb v) l).
Proof.
  intros l v. induction l as [|x l IH]; intros Nd; [reflexivity|]. apply NoDup_cons_iff in Nd as [Nx Nd]. cbn [map existsb]. change (one (Nat.eqb x v) + list_sum (map (fun o => one (Nat.eqb o v)) l) = one (Nat.eqb v x || existsb (Nat.eqb v) l)).
  rewrite IH by exact Nd. rewrite (Nat.eqb_sym v x). destruct (Nat.eqb_spec x v) as [->|N]; [|reflexivity].
  destruct (existsb (Nat.eqb v) l) eqn:E; [|reflexivity]. exfalso. apply existsb_exists in E as (y & Hy & Ey). apply Nat.eqb_eq in Ey. subst y. contradiction.
Qed.
Lemma sum_ge : forall {A} (f : A -> nat) l, (forall x, In x l -> 1 <= f x) -> length l <= list_sum (map f l).
Proof. intros A f l. induction l as [|x l IH]; intros H; [reflexivity|]. cbn. specialize (IH (fun y Hy => H y (or_intror Hy))). specialize (H x (or_introl eq_refl)). unfold list_sum in IH. lia. Qed.

Section Apply.
Context (g : graph) (rank : nat -> nat).
Hypothesis Hrank : forall c, conn g c -> rank (from g c) < rank (to g c).
Lemma apply_count : forall fuel o v, rank o < fuel -> cnt (apply_calls g fuel o) v = one (Nat.eqb o v) + list_sum (map (fun d => cnt (apply_calls g fuel o) (to g d)) (outs g v)).
Proof.
  induction fuel as [|fuel IH]; intros o v Hf; [lia|]. cbn [apply_calls].
  rewrite cnt_cons, cnt_flat_map. f_equal.
  rewrite (sum_ext _ (fun c => one (Nat.eqb (from g c) v) + list_sum (map (fun d => cnt (apply_calls g fuel (from g c)) (to g d)) (outs g v)))).
  2:{ intros c Hc. apply IH. apply in_ins in Hc as [Cc Et]. specialize (Hrank c Cc). rewrite Et in Hrank. lia. }
  rewrite sum_add, links, sum_swap, <- sum_add. apply sum_ext. intros d _. rewrite cnt_cons, cnt_flat_map. reflexivity.
Qed.
Lemma apply_nodes : (forall c, conn g c -> node g (from g c)) -> forall fuel o v, node g o -> In v (apply_calls g fuel o) -> node g v.
Proof.
  intros Hn fuel. induction fuel as [|fuel IH]; intros o v No H; [destruct H|]. cbn [apply_calls] in H. destruct H as [<-|H]; [exact No|].
  apply in_flat_map in H as (c & Hc & H). apply in_ins in Hc as [Cc _]. apply (IH (from g c)); auto.
Qed.
Lemma total_count : forall fuel v, (forall o, In o (outputs g) -> rank o < fuel) -> NoDup (outputs g) ->
  let calls := flat_map (apply_calls g fuel) (outputs g) in
  cnt calls v = one (existsb (Nat.eqb v) (outputs g)) + list_sum (map (fun d => cnt calls (to g d)) (outs g v)).
Proof.
  intros fuel v Hf Nd calls. subst calls. rewrite cnt_flat_map. rewrite (sum_ext _ (fun o => one (Nat.eqb o v) + list_sum (map (fun d => cnt (apply_calls g fuel o) (to g d)) (outs g v)))).
  2:{ intros o Ho. apply apply_count. now apply Hf. }
  rewrite sum_add, sum_swap, sum_one_le by exact Nd. f_equal. apply sum_ext. intros d _. now rewrite cnt_flat_map.
Qed.
End Apply.

Lemma down_ind : forall g rank top, (forall c, conn g c -> rank (from g c) < rank (to g c)) -> (forall v, node g v -> rank v <= top) ->
  forall Q : nat -> Prop, (forall v, node g v -> (forall c, In c (outs g v) -> Q (to g c)) -> Q v) -> forall v, node g v -> Q v.
Proof.
  intros g rank top Hr Ht Q H v Nv. remember (top - rank v) as r eqn:Er. revert v Er Nv. induction r as [r IH] using lt_wf_ind. intros v -> Nv. apply H; [exact Nv|]. intros c Hc. apply in_outs in Hc as [Cc Ef].
  assert (Nt : node g (to g c)) by (right; now apply ins_ne). pose proof (Hr c Cc). pose proof (Ht _ Nt). apply (IH (top - rank (to g c))); [subst v; lia|reflexivity|exact Nt].
Qed.
Lemma up_ind : forall g rank, (forall c, conn g c -> rank (from g c) < rank (to g c)) -> (forall c, conn g c -> node g (from g c)) ->
  forall Q : nat -> Prop, (forall h, In h (heads g) -> Q h) -> (forall c, conn g c -> Q (from g c) -> Q (to g c)) -> forall v, node g v -> Q v.
Proof.
  intros g rank Hr Hn Q H1 H2 v. remember (rank v) as r eqn:Er. revert v Er. induction r as [r IH] using lt_wf_ind. intros v -> [Hv|Hv]; [now apply H1|].
  destruct (ins g v) as [|c l] eqn:E; [contradiction|]. assert (X : In c (ins g v)) by (rewrite E; now left). apply in_ins in X as [Cc <-]. apply H2; [exact Cc|].
  apply (IH (rank (from g c))); [now apply Hr|reflexivity|now apply Hn].
Qed.

Lemma apply_run_once : forall needs calls queue, NoDup calls -> (forall v, In v calls -> 0 < queue v) ->
  exists queue', apply_run needs calls queue = Some queue' /\ (forall v, In v calls -> queue' v = 0) /\ (forall v, ~ In v calls -> queue' v = queue v).
Proof.
  intros needs calls. induction calls as [|v calls IH]; intros queue Nd H; [exists queue; repeat split; [intros ? []]|].
  cbn [apply_run]. apply NoDup_cons_iff in Nd as [Nv Nd]. pose proof (H v (or_introl eq_refl)) as Hv. replace (Nat.eqb (queue v) 0) with false by (symmetry; apply Nat.eqb_neq; lia). rewrite andb_false_r.
  destruct (IH (set_at queue v 0) Nd) as (q & E & A & B). { intros w Hw. rewrite set_at_other by (intros ->; contradiction). apply H. now right. }
  exists q. split; [exact E|]. split.
  - intros w [<-|Hw]; [|now apply A]. rewrite B by exact Nv. apply set_at_same.
  - intros w Hw. rewrite B by (intros G; apply Hw; now right). apply set_at_other. intros ->. apply Hw. now left.
Qed.
Lemma apply_run_empty : forall needs calls queue v, needs v = true -> queue v = 0 -> In v calls -> apply_run needs calls queue = None.
Proof.
  intros needs calls. induction calls as [|w calls IH]; intros queue v Hn Hq H; [destruct H|]. cbn [apply_run].
  destruct (needs w && Nat.eqb (queue w) 0) eqn:E; [reflexivity|]. destruct H as [->|H]; [rewrite Hn, Hq in E; discriminate|]. apply (IH _ v); [exact Hn| |exact H].
  unfold set_at. destruct (Nat.eqb v w); [reflexivity|exact Hq].
Qed.
Lemma apply_run_twice : forall needs calls queue v, needs v = true -> 2 <= cnt calls v -> apply_run needs calls queue = None.
Proof.
  intros needs calls. induction calls as [|w calls IH]; intros queue v Hn H; [cbn in H; lia|]. cbn [apply_run]. destruct (needs w && Nat.eqb (queue w) 0); [reflexivity|].
  rewrite cnt_cons in H. destruct (Nat.eqb_spec w v) as [->|N]; cbn [one] in H.
  - apply (apply_run_empty _ _ _ v); [exact Hn|apply set_at_same|]. apply (count_occ_In Nat.eq_dec). lia.
  - apply (IH _ v); [exact Hn|lia].
Qed.

(** ** Marking, saving, loading *)
Section Flags.
Context (g : graph) (rank : nat -> nat) (top : nat).
Hypothesis Hrank : forall c, conn g c -> rank (from g c) < rank (to g c).
Hypothesis Htop : forall v, node g v -> rank v <= top.

(** A successor of an unsaved node is unsaved, or one of [Q]; the nodes in [D] are excepted. *)
Definition closed (Q : nat -> Prop) (D : list nat) (s : nat -> bool) : Prop := forall c, conn g c -> s (from g c) = false -> ~ In (from g c) D -> s (to g c) = false \/ Q (to g c).
Definition marked (v : nat) (s s' : nat -> bool) : Prop :=
  (forall u, s u = false -> s' u = false) /\
  (forall u, s' u = false -> s u = true -> u = v \/ exists c, conn g c /\ to g c = u /\ s' (from g c) = false /\ s (from g c) = true).
Lemma mark_ok : forall fuel v Q D s, node g v -> top - rank v < fuel -> closed Q D s ->
  closed Q D (mark_unsaved g fuel v s) /\ mark_unsaved g fuel v s v = false /\ marked v s (mark_unsaved g fuel v s).
Proof.
  induction fuel as [|fuel IH]; intros v Q D s Nv Hf Hc; [lia|]. cbn [mark_unsaved]. destruct (s v) eqn:Sv; [|split; [exact Hc|split; [exact Sv|split; [auto|intros u H1 H2; congruence]]]].
  assert (F : forall cs s1, (forall c, In c cs -> In c (outs g v)) -> closed Q (v :: D) s1 ->
    (forall u, s u = false -> s1 u = false) -> s1 v = false -> (forall u, s1 u = false -> s u = true -> u = v \/ exists c, conn g c /\ to g c = u /\ s1 (from g c) = false /\ s (from g c) = true) ->
    let s2 := fold_left (fun s c => mark_unsaved g fuel (to g c) s) cs s1 in
    closed Q (v :: D) s2 /\ (forall u, s1 u = false -> s2 u = false) /\ (forall c, In c cs -> s2 (to g c) = false) /\
    (forall u, s2 u = false -> s u = true -> u = v \/ exists c, conn g c /\ to g c = u /\ s2 (from g c) = false /\ s (from g c) = true)).
  { intros cs. induction cs as [|c cs IHc]; intros s1 Hcs C1 M1 V1 P1; [split; [exact C1|]; split; [auto|]; split; [intros ? []|exact P1]|]. cbn [fold_left].
    assert (X : In c (outs g v)) by (apply Hcs; now left). apply in_outs in X as [Cc Ef]. assert (Nt : node g (to g c)) by (right; now apply ins_ne).
    destruct (IH (to g c) Q (v :: D) s1 Nt) as (A & B & M & P); [pose proof (Hrank c Cc) as R1; pose proof (Htop _ Nt) as R2; rewrite Ef in R1; lia|exact C1|].
    destruct (IHc (mark_unsaved g fuel (to g c) s1)) as (A2 & M2 & B2 & P2); [intros c' Hc'; apply Hcs; now right|exact A|auto|now apply M| |].
    { intros u H1 H2. destruct (s1 u) eqn:Su.
      - right. destruct (P u H1 Su) as [->|(c' & Cc' & Et & F1 & F2)]; [exists c; rewrite Ef; repeat (split; try assumption); [now apply M]|]. exists c'. repeat (split; try assumption). destruct (s (from g c')) eqn:E; [reflexivity|]. rewrite M1 in F2 by exact E. discriminate.
      - destruct (P1 u Su H2) as [->|(c' & Cc' & Et & F1 & F2)]; [now left|right]. exists c'. repeat (split; try assumption). now apply M. }
    split; [exact A2|]. split; [auto|]. split; [|exact P2]. intros c' [<-|Hc']; [now apply M2|now apply B2]. }
  destruct (F (outs g v) (set_at s v false)) as (A & M & B & P); auto.
  - intros c Cc H N. assert (Nv' : from g c <> v) by (intros E; apply N; left; congruence). rewrite set_at_other in H by exact Nv'.
    destruct (Hc c Cc H) as [G|G]; [intros G; apply N; now right|left|now right]. unfold set_at. destruct (Nat.eqb (to g c) v); [reflexivity|exact G].
  - intros u H. unfold set_at. destruct (Nat.eqb u v); [reflexivity|exact H].
  - apply set_at_same.
  - intros u H1 H2. left. unfold set_at in H1. destruct (Nat.eqb_spec u v); [assumption|congruence].
  - split; [|split; [apply M, set_at_same|split; [|exact P]]].
    + intros c Cc H N. destruct (Nat.eq_dec (from g c) v) as [E|E]; [left; apply B, in_outs; now split|]. apply A; try assumption. intros [G|G]; [congruence|contradiction].
    + intros u H. apply M. unfold set_at. destruct (Nat.eqb u v); [reflexivity|exact H].
Qed.

Lemma save_ok : forall fuel v s, node g v -> top - rank v < fuel -> closed (fun _ => False) [] s -> s v = false ->
  In v (save_calls g fuel v s) /\ (forall c, conn g c -> In (from g c) (save_calls g fuel v s) -> In (to g c) (save_calls g fuel v s)) /\ (forall u, In u (save_calls g fuel v s) -> node g u).
Proof.
  induction fuel as [|fuel IH]; intros v s Nv Hf Hc Sv; [lia|]. cbn [save_calls]. rewrite Sv.
  assert (K : forall c, In c (outs g v) -> node g (to g c) /\ top - rank (to g c) < fuel /\ s (to g c) = false).
  { intros c X. apply in_outs in X as [Cc Ef]. assert (Nt : node g (to g c)) by (right; now apply ins_ne). split; [exact Nt|]. split; [pose proof (Hrank c Cc) as R1; pose proof (Htop _ Nt) as R2; rewrite Ef in R1; lia|].
    destruct (Hc c Cc) as [G|[]]; [congruence|auto|exact G]. }
  split; [now left|]. split.
  - intros c Cc [E|H].
    + right. apply in_flat_map. exists c. assert (X : In c (outs g v)) by (apply in_outs; split; [exact Cc|congruence]). split; [exact X|]. destruct (K c X) as (K1 & K2 & K3). destruct (IH (to g c) s K1 K2 Hc K3) as (G & _ & _). exact G.
    + right. apply in_flat_map in H as (d & Hd & H). apply in_flat_map. exists d. split; [exact Hd|]. destruct (K d Hd) as (K1 & K2 & K3). destruct (IH (to g d) s K1 K2 Hc K3) as (_ & G & _). now apply G.
  - intros u [<-|H]; [exact Nv|]. apply in_flat_map in H as (d & Hd & H). destruct (K d Hd) as (K1 & K2 & K3). destruct (IH (to g d) s K1 K2 Hc K3) as (_ & _ & G). now apply G.
Qed.

Lemma save_all_ok : forall fuel hs s, (forall v, node g v -> top - rank v < fuel) -> (forall h, In h hs -> node g h) -> closed (fun _ => False) [] s ->
  let '(s', l) := save_knowledge g fuel hs s in
  closed (fun _ => False) [] s' /\ (forall u, s u = false -> s' u = false) /\ (forall h, In h hs -> s' h = false /\ In h l) /\
  (forall c, conn g c -> In (from g c) l -> In (to g c) l) /\ (forall u, In u l -> node g u).
Proof.
  intros fuel hs. induction hs as [|h hs IH]; intros s Hf Hh Hc; cbn [save_knowledge]; [split; [exact Hc|]; split; [auto|]; split; [intros ? []|]; split; [intros ? ? []|intros ? []]|].
  pose proof (Hh h (or_introl eq_refl)) as Nh. destruct (mark_ok fuel h _ _ s Nh (Hf h Nh) Hc) as (A & B & M & _).
  specialize (IH (mark_unsaved g fuel h s) Hf (fun x Hx => Hh x (or_intror Hx)) A). destruct (save_ok fuel h _ Nh (Hf h Nh) A B) as (S1 & S2 & S3).
  destruct (save_knowledge g fuel hs (mark_unsaved g fuel h s)) as [s' l]. destruct IH as (I1 & I2 & I3 & I4 & I5).
  split; [exact I1|]. split; [auto|]. split; [|split].
  - intros x [<-|Hx]; [split; [now apply I2|apply in_or_app; now left]|]. destruct (I3 x Hx). split; [assumption|apply in_or_app; now right].
  - intros c Cc H. apply in_or_app. apply in_app_or in H as [H|H]; [left; now apply S2|right; now apply I4].
  - intros u H. apply in_app_or in H as [H|H]; auto.
Qed.

Definition loaded (s : nat -> bool) (l : list nat) (s' : nat -> bool) (l' : list nat) (N : list nat) : Prop :=
  l' = l ++ N /\ (forall u, s' u = true <-> s u = true \/ In u N) /\ (forall u, In u N -> node g u /\ s u = false).
Lemma load_ok : forall fuel v s l, node g v -> top - rank v < fuel -> let '(s', l') := load_calls g fuel v (s, l) in
  exists N, loaded s l s' l' N /\ s' v = true /\ (forall u c, In u N -> In c (outs g u) -> s' (to g c) = true).
Proof.
  induction fuel as [|fuel IH]; intros v s l Nv Hf; [lia|]. cbn [load_calls]. destruct (s v) eqn:Sv.
  { exists []. split; [split; [now rewrite app_nil_r|split; [intros u; split; [auto|intros [H|[]]; exact H]|intros ? []]]|split; [exact Sv|intros ? ? []]]. }
  assert (F : forall cs s1 l1 N1, (forall c, In c cs -> In c (outs g v)) -> loaded s l s1 l1 N1 -> (forall u c, In u N1 -> u <> v -> In c (outs g u) -> s1 (to g c) = true) ->
    let '(s2, l2) := fold_left (fun st c => load_calls g fuel (to g c) st) cs (s1, l1) in
    exists N2, loaded s l s2 l2 (N1 ++ N2) /\ (forall u, s1 u = true -> s2 u = true) /\ (forall c, In c cs -> s2 (to g c) = true) /\ (forall u c, In u (N1 ++ N2) -> u <> v -> In c (outs g u) -> s2 (to g c) = true)).
  { intros cs. induction cs as [|c cs IHc]; intros s1 l1 N1 Hcs L1 C1; cbn [fold_left].
    { exists []. rewrite app_nil_r. split; [exact L1|]. split; [auto|]. split; [intros ? []|exact C1]. }
    assert (X : In c (outs g v)) by (apply Hcs; now left). apply in_outs in X as [Cc Ef]. assert (Nt : node g (to g c)) by (right; now apply ins_ne).
    specialize (IH (to g c) s1 l1 Nt). destruct (load_calls g fuel (to g c) (s1, l1)) as [sm lm]. destruct IH as (N & (E1 & E2 & E3) & Et & En); [pose proof (Hrank c Cc) as R1; pose proof (Htop _ Nt) as R2; rewrite Ef in R1; lia|].
    destruct L1 as (L1 & L2 & L3). specialize (IHc sm lm (N1 ++ N) (fun d Hd => Hcs d (or_intror Hd))).
    destruct (fold_left (fun st c => load_calls g fuel (to g c) st) cs (sm, lm)) as [s2 l2]. destruct IHc as (N2 & P1 & P2 & P3 & P4).
    - split; [rewrite E1, L1; now rewrite app_assoc|]. split.
      + intros u. rewrite E2, L2, in_app_iff. tauto.
      + intros u H. apply in_app_or in H as [H|H]; [now apply L3|]. destruct (E3 u H) as [Nu Su]. split; [exact Nu|]. destruct (s u) eqn:E; [|reflexivity]. assert (s1 u = true) by (apply L2; now left). congruence.
    - intros u d H Nuv Hd. apply in_app_or in H as [H|H]; [apply E2; left; now apply (C1 u)|now apply (En u)].
    - exists (N ++ N2). rewrite app_assoc. split; [exact P1|]. split; [intros u H; apply P2, E2; now left|]. split; [|exact P4]. intros d [<-|Hd]; [now apply P2|now apply P3]. }
  specialize (F (outs g v) (set_at s v true) (l ++ [v]) [v] (fun c H => H)). destruct (fold_left (fun st c => load_calls g fuel (to g c) st) (outs g v) (set_at s v true, l ++ [v])) as [s2 l2].
  destruct F as (N2 & F1 & F2 & F3 & F4).
  - split; [reflexivity|]. split.
    + intros u. unfold set_at. destruct (Nat.eqb_spec u v) as [->|N]; [split; [right; now left|reflexivity]|]. split; [auto|]. intros [H|[H|[]]]; [exact H|congruence].
    + intros u [<-|[]]. now split.
  - intros u c [<-|[]] N. contradiction.
  - exists ([v] ++ N2). split; [exact F1|]. split; [apply F2, set_at_same|]. intros u c Hu Hc. destruct (Nat.eq_dec u v) as [->|N]; [now apply F3|now apply (F4 u)].
Qed.

Lemma load_all_ok : forall fuel hs s l, (forall v, node g v -> top - rank v < fuel) -> (forall h, In h hs -> node g h) -> closed (fun u => In u l) [] s ->
  (forall c, conn g c -> In (from g c) l -> In (to g c) l) -> (forall u, In u l -> node g u /\ s u = true) ->
  let '(s', l') := load_knowledge g fuel hs (s, l) in
  (forall u, In u l' -> node g u /\ s' u = true) /\ (forall u, In u l -> In u l') /\ (forall h, In h hs -> In h l') /\ (forall c, conn g c -> In (from g c) l' -> In (to g c) l').
Proof.
  intros fuel hs. induction hs as [|h hs IH]; intros s l Hf Hh Hc Hl Ht; cbn [load_knowledge]; [split; [exact Ht|]; split; [auto|]; split; [intros ? []|exact Hl]|].
  pose proof (Hh h (or_introl eq_refl)) as Nh. cbn [fst snd]. destruct (mark_ok fuel h _ _ s Nh (Hf h Nh) Hc) as (A & B & M & P). set (sm := mark_unsaved g fuel h s) in *.
  pose proof (load_ok fuel h sm l Nh (Hf h Nh)) as L. destruct (load_calls g fuel h (sm, l)) as [s1 l1]. destruct L as (N & (L1 & L2 & L3) & L4 & L5).
  assert (Hin : In h N) by (apply L2 in L4; destruct L4 as [G|G]; [congruence|exact G]).
  assert (Up : forall u, In u l -> s1 u = true).
  { assert (K : forall u, sm u = false -> s u = true -> In u N).
    { intros u. remember (rank u) as r eqn:Er. revert u Er. induction r as [r IHr] using lt_wf_ind. intros u -> E Su. destruct (P u E Su) as [->|(c & Cc & <- & F1 & F2)]; [exact Hin|].
      assert (X : In (from g c) N) by (apply (IHr (rank (from g c))); auto). assert (Y : s1 (to g c) = true) by (apply (L5 (from g c)); [exact X|apply in_outs; now split]).
      apply L2 in Y as [Y|Y]; [congruence|exact Y]. }
    intros u Hu. destruct (Ht u Hu) as [_ Su]. apply L2. destruct (sm u) eqn:E; [now left|right; now apply K]. }
  assert (Cl : forall c, conn g c -> In (from g c) l1 -> In (to g c) l1).
  { intros c Cc H. rewrite L1 in *. apply in_or_app. apply in_app_or in H as [H|H]; [left; now apply Hl|]. destruct (L3 _ H) as [_ Sf].
    assert (Y : s1 (to g c) = true) by (apply (L5 (from g c)); [exact H|apply in_outs; now split]). apply L2 in Y as [Y|Y]; [|now right].
    destruct (A c Cc Sf) as [G|G]; [auto|congruence|now left]. }
  specialize (IH s1 l1 Hf (fun x Hx => Hh x (or_intror Hx))). destruct (load_knowledge g fuel hs (s1, l1)) as [s' l'].
  destruct IH as (I1 & I2 & I3 & I4); [|exact Cl| |].
  - intros c Cc H _. destruct (s1 (to g c)) eqn:E; [right|now left]. rewrite L1. apply in_or_app. apply L2 in E as [E|E]; [|now right].
    assert (Sf : sm (from g c) = false) by (destruct (sm (from g c)) eqn:G; [assert (s1 (from g c) = true) by (apply L2; now left); congruence|reflexivity]).
    destruct (A c Cc Sf) as [G|G]; [auto|congruence|now left].
  - intros u Hu. rewrite L1 in Hu. apply in_app_or in Hu as [Hu|Hu]; [split; [now apply Ht|now apply Up]|]. split; [now apply L3|apply L2; now right].
  - split; [exact I1|]. split; [intros u Hu; apply I2; rewrite L1; apply in_or_app; now left|]. split; [|exact I4]. intros x [<-|Hx]; [|now apply I3]. apply I2. rewrite L1. apply in_or_app. now right.
Qed.
End Flags.

(** ** Counting parameters *)
Section Count.
Context (g : graph) (params : nat -> nat) (U : list nat).
Hypothesis Uto : forall c, conn g c -> In (to g c) U.
Definition total (l : list nat) : nat := list_sum (map params l).
Lemma total_app : forall l m, total (l ++ m) = total l + total m.
Proof. intros l m. unfold total. now rewrite map_app, list_sum_app. Qed.
Lemma existsb_In : forall v l, existsb (Nat.eqb v) l = true <-> In v l.
Proof. intros v l. rewrite existsb_exists. split; [intros (x & Hx & E); apply Nat.eqb_eq in E; now subst|intros H; exists v; split; [exact H|apply Nat.eqb_refl]]. Qed.
Lemma count_ok : forall fuel v vis, NoDup vis -> incl vis U -> In v U -> length U < fuel + length vis ->
  let '(n, vis') := count g params fuel v vis in
  exists N, vis' = N ++ vis /\ NoDup vis' /\ incl vis' U /\ n = total N /\ In v vis' /\ (forall u c, In u N -> In c (outs g u) -> In (to g c) vis') /\
    (forall Q : nat -> Prop, Q v -> (forall c, conn g c -> Q (from g c) -> Q (to g c)) -> forall u, In u N -> Q u).
Proof.
  induction fuel as [|fuel IH]; intros v vis Nd Hi Hv Hf; [pose proof (NoDup_incl_length Nd Hi); lia|]. cbn [count].
  destruct (existsb (Nat.eqb v) vis) eqn:E.
  { apply existsb_In in E. exists []. repeat (split; try assumption); try reflexivity; [intros ? ? []|intros ? ? ? ? []]. }
  assert (Nv : ~ In v vis) by (intros H; apply existsb_In in H; congruence).
  assert (F : forall cs n1 N1, (forall c, In c cs -> In c (outs g v)) -> NoDup (N1 ++ v :: vis) -> incl (N1 ++ v :: vis) U -> n1 = params v + total N1 ->
    (forall u c, In u N1 -> In c (outs g u) -> In (to g c) (N1 ++ v :: vis)) -> (forall Q : nat -> Prop, Q v -> (forall c, conn g c -> Q (from g c) -> Q (to g c)) -> forall u, In u N1 -> Q u) ->
    let '(n2, vis2) := fold_left (fun st c => let '(n, vis) := count g params fuel (to g c) (snd st) in (fst st + n, vis)) cs (n1, N1 ++ v :: vis) in
    exists N2, vis2 = N2 ++ v :: vis /\ NoDup vis2 /\ incl vis2 U /\ n2 = params v + total N2 /\ (forall u, In u N1 -> In u N2) /\ (forall c, In c cs -> In (to g c) vis2) /\
      (forall u c, In u N2 -> In c (outs g u) -> In (to g c) vis2) /\ (forall Q : nat -> Prop, Q v -> (forall c, conn g c -> Q (from g c) -> Q (to g c)) -> forall u, In u N2 -> Q u)).
  { intros cs. induction cs as [|c cs IHc]; intros n1 N1 Hcs D1 U1 S1 C1 Q1; cbn [fold_left].
    { exists N1. repeat (split; try assumption); try reflexivity; [auto|intros ? []]. }
    assert (X : In c (outs g v)) by (apply Hcs; now left). apply in_outs in X as [Cc Ef].
    specialize (IH (to g c) (N1 ++ v :: vis) D1 U1 (Uto c Cc)). cbn [fst snd]. destruct (count g params fuel (to g c) (N1 ++ v :: vis)) as [n vm].
    destruct IH as (N & -> & D2 & U2 & S2 & T2 & C2 & Q2); [rewrite app_length; cbn [length]; lia|].
    specialize (IHc (n1 + n) (N ++ N1) (fun d Hd => Hcs d (or_intror Hd))). rewrite <- app_assoc in IHc. destruct (fold_left _ cs (n1 + n, N ++ N1 ++ v :: vis)) as [n2 vis2].
    destruct IHc as (N2 & A1 & A2 & A3 & A4 & A5 & A6 & A7 & A8); try assumption.
    - rewrite total_app. lia.
    - intros u d Hu Hd. apply in_app_or in Hu as [Hu|Hu]; [now apply (C2 u)|]. apply in_or_app. right. now apply (C1 u).
    - intros Q HQ HS u Hu. apply in_app_or in Hu as [Hu|Hu]; [|now apply Q1]. apply Q2; try assumption. apply HS; [exact Cc|now rewrite Ef].
    - exists N2. repeat (split; try assumption).
      + intros u Hu. apply A5, in_or_app. now right.
      + intros d [<-|Hd]; [|now apply A6]. rewrite A1. apply in_app_or in T2 as [G|G]; [apply in_or_app; left; apply A5, in_or_app; now left|].
        apply in_app_or in G as [G|G]; apply in_or_app; [left; apply A5, in_or_app; now right|now right]. }
  specialize (F (outs g v) (params v) [] (fun c H => H)). cbn [app] in F. destruct (fold_left _ (outs g v) (params v, v :: vis)) as [n2 vis2].
  destruct F as (N2 & A1 & A2 & A3 & A4 & A5 & A6 & A7 & A8).
  - now constructor.
  - intros u [<-|Hu]; auto.
  - unfold total. cbn. lia.
  - intros ? ? [].
  - intros ? ? ? ? [].
  - exists (N2 ++ [v]). rewrite <- app_assoc. cbn [app]. split; [exact A1|]. split; [exact A2|]. split; [exact A3|]. split; [rewrite total_app, A4; unfold total; cbn; lia|].
    split; [rewrite A1; apply in_or_app; right; now left|]. split.
    + intros u c Hu Hc. apply in_app_or in Hu as [Hu|[<-|[]]]; [now apply (A7 u)|now apply A6].
    + intros Q HQ HS u Hu. apply in_app_or in Hu as [Hu|[<-|[]]]; [now apply A8|exact HQ].
Qed.
Lemma count_heads_ok : forall fuel hs n vis, NoDup vis -> incl vis U -> incl hs U -> length U < fuel -> n = total vis -> (forall u c, In u vis -> In c (outs g u) -> In (to g c) vis) ->
  let '(n', vis') := fold_left (fun st h => let '(n, vis) := count g params fuel h (snd st) in (fst st + n, vis)) hs (n, vis) in
  n' = total vis' /\ NoDup vis' /\ incl vis vis' /\ incl hs vis' /\ (forall u c, In u vis' -> In c (outs g u) -> In (to g c) vis') /\
  (forall Q : nat -> Prop, (forall h, In h hs -> Q h) -> (forall u, In u vis -> Q u) -> (forall c, conn g c -> Q (from g c) -> Q (to g c)) -> forall u, In u vis' -> Q u).
Proof.
  intros fuel hs. induction hs as [|h hs IH]; intros n vis Nd Hi Hh Hf Hn Hc; cbn [fold_left].
  { split; [exact Hn|]. split; [exact Nd|]. split; [intros x Hx; exact Hx|]. split; [intros ? []|]. split; [exact Hc|]. auto. }
  cbn [fst snd]. pose proof (count_ok fuel h vis Nd Hi (Hh h (or_introl eq_refl))) as C. destruct (count g params fuel h vis) as [m vm]. destruct C as (N & -> & D2 & U2 & S2 & T2 & C2 & Q2); [lia|].
  specialize (IH (n + m) (N ++ vis) D2 U2 (fun x Hx => Hh x (or_intror Hx)) Hf). destruct (fold_left _ hs (n + m, N ++ vis)) as [n' vis'].
  destruct IH as (A1 & A2 & A3 & A4 & A5 & A6).
  - rewrite total_app. lia.
  - intros u c Hu Hcc. apply in_app_or in Hu as [Hu|Hu]; [now apply (C2 u)|]. apply in_or_app. right. now apply (Hc u).
  - split; [exact A1|]. split; [exact A2|]. split; [intros x Hx; apply A3, in_or_app; now right|]. split; [intros x [<-|Hx]; [now apply A3|now apply A4]|]. split; [exact A5|].
    intros Q H1 H2 H3. apply A6; [intros x Hx; apply H1; now right| |exact H3]. intros u Hu. apply in_app_or in Hu as [Hu|Hu]; [|now apply H2]. apply Q2; [apply H1; now left|exact H3|exact Hu].
Qed.
End Count.
