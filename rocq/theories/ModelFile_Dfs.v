(** Descriptions made depth first are made again in the same order. *)
From Coq Require Import Ascii String List Bool Arith NArith ZArith Reals Lia Permutation Sorted.
From Verif Require Import Chars Outcome NumText_Model ModelFile_Model ModelFile_Spec ModelFile_Proofs ModelFile_Text ModelFile_Load ModelFile_Reload.
Import ListNotations.
Open Scope nat_scope.

Lemma parents_kinds : forall cs i, let pl := nth i (parents_of cs) [] in pl = [] \/ (exists p, pl = [p]) \/ In (Add_concatenated pl) cs.
Proof.
  induction cs as [|c cs IH]; intros i; cbv zeta; [destruct i; now left|]. specialize (IH (i - 1)) as IH1. specialize (IH i) as IH2. cbv zeta in *.
  destruct c as [t x o f a|t x n k f a|p x o t f a|p n k t f a|ps|s id]; cbn [parents_of].
  1-5: destruct i as [|i]; cbn [nth]; [|replace (S i - 1) with i in IH1 by lia; destruct IH1 as [E|[E|E]]; [now left|right; now left|right; right; now right]].
  - now left.
  - now left.
  - right; left; now exists p.
  - right; left; now exists p.
  - right; right; now left.
  - destruct IH2 as [E|[E|E]]; [now left|right; now left|right; right; now right].
Qed.
Lemma increasing_short : increasing [] /\ forall p, increasing [p].
Proof. split; [|intros p]; intros i j a b L H1 H2; destruct i, j; try discriminate; try lia; destruct j; discriminate. Qed.
Lemma adopted_filter : forall ps n i, (forall w, NoDup (nth w ps [])) -> adopted ps n i = filter (fun w => existsb (Nat.eqb i) (nth (w - 1) ps [])) (seq 1 n).
Proof.
  intros ps n i H. induction n as [|n IH]; [reflexivity|]. rewrite adopted_S, IH, seq_S, filter_app. f_equal. cbn [filter Nat.add]. replace (S n - 1) with n by lia.
  pose proof (proj1 (NoDup_count_occ Nat.eq_dec _) (H n) i) as C. destruct (existsb (Nat.eqb i) (nth n ps [])) eqn:X.
  - apply existsb_In in X. apply (count_occ_In Nat.eq_dec) in X. replace (count_occ Nat.eq_dec (nth n ps []) i) with 1 by lia. reflexivity.
  - assert (Z : ~ In i (nth n ps [])) by (rewrite <- existsb_In; congruence). apply (count_occ_not_In Nat.eq_dec) in Z. rewrite Z. reflexivity.
Qed.

Section Dfs.
Context (cs : list call) (d : dsl) (D : described (parents_of cs) d) (HF : Forall flags_ok (vertices d)) (HK : Forall unfiltered_ok (vertices d)) (HC : Forall (fun v => construct v = Ok tt) (vertices d))
  (HI : forall i v, nth_error (vertices d) i = Some v -> nth i (parents_of cs) [] = [] -> acceptsInput v = true) (DF : depth_first cs) (JO : joins_in_order cs).
Local Notation n := (length (vertices d)).
Local Notation lp := (last_parent cs).
Lemma lp_in : forall v p, lp v = Some p -> In p (parents cs v).
Proof. intros v p H. unfold last_parent in H. eapply nth_error_In; exact H. Qed.
Lemma in_bounds : forall v p, In p (parents cs v) -> 1 <= p < v /\ v <= n.
Proof.
  intros v p H. unfold parents in H. destruct v as [|i]; [contradiction H|]. pose proof (de_before _ _ D _ _ H). pose proof (de_count _ _ D).
  destruct (Nat.lt_ge_cases i (length (parents_of cs))) as [L|L]; [lia|]. rewrite nth_overflow in H by exact L. contradiction H.
Qed.
Lemma lp_bounds : forall v p, lp v = Some p -> 1 <= p < v /\ v <= n.
Proof. intros v p H. apply in_bounds. now apply lp_in. Qed.
Lemma lp_none : forall v, lp v = None -> parents cs v = [].
Proof. intros v H. unfold last_parent in H. apply nth_error_None in H. destruct (parents cs v); [reflexivity|cbn in H; lia]. Qed.
Lemma descends_le : forall u w, descends cs u w -> u <= w.
Proof. intros u w H. induction H as [|p w H IH L]; [lia|]. apply lp_bounds in L. lia. Qed.
Lemma descend_all : forall u l, u <= l -> (forall x, u < x <= l -> exists q, lp x = Some q /\ u <= q) -> descends cs u l.
Proof.
  intros u l. induction l as [l IH] using lt_wf_ind. intros Hl H. destruct (Nat.eq_dec u l) as [->|N]; [constructor|]. destruct (H l ltac:(lia)) as (q & Hq & Q).
  apply descends_step with (p := q); [|exact Hq]. apply lp_bounds in Hq. apply IH; [lia|exact Q|]. intros x Hx. apply H. lia.
Qed.
Lemma between : forall p v w, lp v = Some p -> p < w < v -> exists q, lp w = Some q /\ p <= q.
Proof.
  intros p v w H Hw. pose proof (DF p v H w Hw) as X. destruct X as [|q w X L]; [lia|]. exists q. split; [exact L|]. now apply descends_le.
Qed.
Lemma parents_increasing : forall i, increasing (nth i (parents_of cs) []).
Proof.
  intros i. destruct (parents_kinds cs i) as [E|[[p E]|E]]; [rewrite E; apply increasing_short|rewrite E; apply increasing_short|]. now apply JO.
Qed.
Lemma last_is_last : forall v u l, In u (parents cs v) -> lp v = Some l -> u <> l -> u < l /\ ~ descends cs u l.
Proof.
  intros v u l Hu Hl N. destruct v as [|i]; [contradiction Hu|]. unfold last_parent, parents in *. destruct (parents_kinds cs i) as [E|[[p E]|E]].
  - rewrite E in Hu. contradiction Hu.
  - rewrite E in Hu, Hl. cbn in Hl. destruct Hu as [<-|[]]. congruence.
  - destruct (JO _ E) as [I1 I2]. apply In_nth_error in Hu as [j Hj]. assert (j < length (nth i (parents_of cs) [])) by (apply nth_error_Some; congruence).
    assert (j < length (nth i (parents_of cs) []) - 1). { destruct (Nat.eq_dec j (length (nth i (parents_of cs) []) - 1)) as [->|]; [congruence|lia]. }
    split; [exact (I1 _ _ _ _ H0 Hj Hl)|exact (I2 _ _ _ H0 Hj Hl)].
Qed.
Lemma edges_sorted : forall i v, nth_error (vertices d) i = Some v -> StronglySorted lt (edges v) /\ forall e, In e (edges v) <-> In (S i) (parents cs e).
Proof.
  intros i v H. rewrite (de_edges _ _ D _ _ H). split.
  - rewrite adopted_filter; [apply filter_sorted, seq_sorted|]. intros w. apply sorted_nodup, increasing_sorted, parents_increasing.
  - intros e. rewrite in_adopted. split.
    + intros [He I]. destruct e as [|e]; [lia|]. cbn [parents]. now replace (S e - 1) with e in I by lia.
    + intros I. pose proof (in_bounds _ _ I) as B. split; [lia|]. destruct e as [|e]; [lia|]. cbn [parents] in I. now replace (S e - 1) with e by lia.
Qed.
Lemma input_or_parent : forall i v, nth_error (vertices d) i = Some v -> (acceptsInput v = true -> parents cs (S i) = []) /\ (acceptsInput v = false -> parents cs (S i) <> []).
Proof.
  intros i v H. cbn [parents]. split.
  - intros A. destruct (de_origin _ _ D _ _ H); congruence.
  - intros A E. rewrite (HI _ _ H E) in A. discriminate.
Qed.
(** The vertices from [v] to [m] are the descendants of [v]. *)
Definition family (v m : nat) : Prop := forall w, v < w <= m -> exists q, lp w = Some q /\ v <= q.
Lemma recreate_depth_first : forall fuel v, 1 <= v <= n -> n - v < fuel ->
  exists m, recreate fuel d v (lp v) (cut (v - 1) d, known (v - 1)) = Ok (cut m d, known m) /\ v <= m <= n /\ family v m /\ (m < n -> match lp (S m) with None => True | Some q => q < v end).
Proof.
  induction fuel as [|fuel IH]; intros v Hv Hf; [lia|]. destruct v as [|k]; [lia|]. replace (S k - 1) with k by lia.
  destruct (nth_error (vertices d) k) as [x|] eqn:Ex; [|apply nth_error_None in Ex; lia]. assert (VA : vertex_at d (S k) = Ok x) by (apply vertex_at_ok; split; [lia|]; now replace (S k - 1) with k by lia).
  destruct (input_or_parent _ _ Ex) as [IP1 IP2]. cbn [parents] in IP1, IP2.
  destruct (create_next (parents_of cs) d D HK HC k x (lp (S k)) Ex (parents_increasing k)) as (v0 & C1 & C2 & C3); [intros _; reflexivity|exact IP2|].
  cbn [recreate]. rewrite VA. cbn [obind]. rewrite C1. cbn [obind]. assert (NX : next_id (cut k d) = S k) by (unfold next_id; rewrite cut_length by lia; reflexivity). rewrite NX.
  rewrite (cut_step _ _ D HF k x v0 Ex C2 C3). cbn [obind]. assert (PK : put (N.of_nat (S k)) (S k) (known k) = known (S k)) by apply (put_keyed _ (fun i => i)). rewrite PK.
  destruct (edges_sorted _ _ Ex) as [ES EI].
  assert (LOOP : forall es m, StronglySorted lt es -> (forall e, In e es -> In (S k) (parents cs e)) -> (forall c, lp c = Some (S k) -> c <= m \/ In c es) -> (forall c, In c es -> lp c = Some (S k) -> m < c) ->
    S k <= m <= n -> family (S k) m -> (m < n -> match lp (S m) with None => True | Some q => q <= S k end) ->
    exists m', again (recreate fuel d) (S k) es (cut m d, known m) = Ok (cut m' d, known m') /\ m <= m' <= n /\ family (S k) m' /\ (m' < n -> match lp (S m') with None => True | Some q => q < S k end)).
  { induction es as [|e es IHe]; intros m SE HP HA HB Hm Fm Jm.
    - exists m. split; [reflexivity|]. split; [lia|]. split; [exact Fm|]. intros Hl. specialize (Jm Hl). destruct (lp (S m)) as [q|] eqn:Eq; [|exact I]. destruct (Nat.eq_dec q (S k)) as [->|]; [|lia]. destruct (HA _ Eq) as [X|[]]. lia.
    - inversion SE as [|? ? S1 S2]; subst. rewrite Forall_forall in S2. assert (HPe := HP e (or_introl eq_refl)). pose proof (in_bounds _ _ HPe) as Be. cbn [again snd]. unfold known at 1. rewrite find_keyed, (proj2 (existsb_seq (S k) m)) by lia. fold (known m).
      destruct (lp e) as [l|] eqn:El.
      2:{ apply lp_none in El. rewrite El in HPe. contradiction HPe. }
      destruct (Nat.eq_dec l (S k)) as [->|N].
      + assert (E1 : e = S m).
        { assert (m < e) by (apply HB; [now left|exact El]). destruct (Nat.eq_dec e (S m)) as [|NE]; [assumption|exfalso]. assert (SM : m < n) by lia. specialize (Jm SM).
          destruct (between (S k) e (S m) El ltac:(lia)) as (q & Q1 & Q2). rewrite Q1 in Jm. assert (q = S k) as -> by lia. destruct (HA _ Q1) as [X|[X|X]]; [lia|lia|]. specialize (S2 _ X). lia. }
        destruct (IH e ltac:(lia) ltac:(lia)) as (m1 & R1 & R2 & R3 & R4). rewrite El in R1. replace (e - 1) with m in R1 by lia. rewrite R1. cbn [obind].
        destruct (IHe m1) as (m' & A1 & A2 & A3 & A4); auto.
        * intros c Hc. apply HP. now right.
        * intros c Hc. destruct (HA _ Hc) as [X|[X|X]]; [left; lia|left; lia|now right].
        * intros c Ic Hc. specialize (S2 _ Ic). destruct (Nat.lt_ge_cases m1 c) as [|X]; [assumption|exfalso]. destruct (R3 c ltac:(lia)) as (q & Q1 & Q2). rewrite Hc in Q1. injection Q1 as <-. lia.
        * lia.
        * intros w Hw. destruct (Nat.le_gt_cases w m) as [X|X]; [apply Fm; lia|]. destruct (Nat.eq_dec w e) as [->|]; [exists (S k); split; [exact El|lia]|]. destruct (R3 w ltac:(lia)) as (q & Q1 & Q2). exists q. split; [exact Q1|lia].
        * intros Hl. specialize (R4 Hl). destruct (lp (S m1)) as [q|] eqn:Eq; [|exact I]. destruct (Nat.le_gt_cases q (S k)) as [|X]; [assumption|exfalso]. destruct (between q (S m1) e Eq ltac:(lia)) as (q2 & Q1 & Q2). rewrite El in Q1. injection Q1 as <-. lia.
        * exists m'. split; [exact A1|]. split; [lia|]. split; [exact A3|exact A4].
      + assert (NK : S k <> l) by congruence. destruct (last_is_last e (S k) l HPe El NK) as [LK ND]. assert (ML : m < l).
        { destruct (Nat.lt_ge_cases m l) as [|X]; [assumption|exfalso]. apply ND. apply descend_all; [lia|]. intros w Hw. apply Fm. lia. }
        destruct e as [|e]; [lia|]. destruct (nth_error (vertices d) e) as [y|] eqn:Ey; [|apply nth_error_None in Ey; lia]. destruct (input_or_parent _ _ Ey) as [IY _].
        assert (AY : acceptsInput y = false). { destruct (acceptsInput y); [|reflexivity]. specialize (IY eq_refl). rewrite IY in HPe. contradiction HPe. }
        assert (W : create_one (N.of_nat (S e)) (with_edges [] y) (Some (S k)) (emap d) (cut m d) (known m) = Ok None).
        { apply (create_waits (parents_of cs) d D m e y (S k) l); auto; [apply parents_increasing|]. apply lp_in in El. exact El. }
        assert (R : recreate fuel d (S e) (Some (S k)) (cut m d, known m) = Ok (cut m d, known m)).
        { destruct fuel as [|fuel']; [lia|]. cbn [recreate]. assert (VY : vertex_at d (S e) = Ok y) by (apply vertex_at_ok; split; [lia|]; now replace (S e - 1) with e by lia). rewrite VY. cbn [obind]. rewrite W. reflexivity. }
        rewrite R. cbn [obind]. apply IHe; auto.
        * intros c Hc. apply HP. now right.
        * intros c Hc. destruct (HA _ Hc) as [X|[X|X]]; [now left| |now right]. subst c. rewrite El in Hc. congruence.
        * intros c Ic Hc. apply HB; [now right|exact Hc]. }
  destruct (LOOP (edges x) (S k)) as (m & A1 & A2 & A3 & A4); auto.
  - intros e He. now apply EI.
  - intros c Hc. right. apply EI. now apply lp_in.
  - intros c _ Hc. apply lp_bounds in Hc. lia.
  - lia.
  - intros w Hw. lia.
  - intros _. destruct (lp (S (S k))) as [q|] eqn:Eq; [|exact I]. apply lp_bounds in Eq. lia.
  - exists m. split; [exact A1|]. split; [lia|]. split; [exact A3|exact A4].
Qed.
Lemma cut_all : cut n d = d.
Proof.
  apply dsl_ext; [reflexivity| |].
  - intros i. rewrite cut_nth. destruct (Nat.ltb_spec i n) as [H|H]; [|symmetry; now apply nth_error_None]. destruct (nth_error (vertices d) i) as [v|] eqn:E; [|reflexivity]. cbn [option_map]. f_equal.
    rewrite (de_edges _ _ D _ _ E), filter_le_adopted by lia. rewrite <- (de_edges _ _ D _ _ E). apply with_own.
  - cbn [cut inputReceptors]. rewrite (de_heads _ _ D), filter_le_seq by lia. reflexivity.
Qed.
Lemma reload_same : reload d = Ok d.
Proof.
  unfold reload.
  assert (LOOP : forall hs m, StronglySorted lt hs -> (forall h, In h hs -> 1 <= h <= n /\ lp h = None /\ m < h) -> (forall h, 1 <= h <= n -> lp h = None -> h <= m \/ In h hs) -> m <= n -> (m < n -> lp (S m) = None) ->
    fold_left (fun st head => do st <- st; recreate (S n) d head None st) hs (Ok (cut m d, known m)) = Ok (cut n d, known n)).
  { induction hs as [|h hs IHh]; intros m SH H1 H2 Hm Jm.
    - cbn [fold_left]. destruct (Nat.eq_dec m n) as [->|]; [reflexivity|]. exfalso. destruct (H2 (S m) ltac:(lia) (Jm ltac:(lia))) as [X|[]]. lia.
    - inversion SH as [|? ? S1 S2]; subst. rewrite Forall_forall in S2. cbn [fold_left obind]. destruct (H1 h (or_introl eq_refl)) as (Hh & Lh & Mh).
      assert (E1 : h = S m). { destruct (Nat.eq_dec h (S m)) as [|NE]; [assumption|exfalso]. destruct (H2 (S m) ltac:(lia) (Jm ltac:(lia))) as [X|[X|X]]; [lia|lia|]. specialize (S2 _ X). lia. }
      destruct (recreate_depth_first (S n) h ltac:(lia) ltac:(lia)) as (m1 & R1 & R2 & R3 & R4). rewrite Lh in R1. replace (h - 1) with m in R1 by lia. rewrite R1. apply IHh; auto.
      + intros x Hx. destruct (H1 x (or_intror Hx)) as (X1 & X2 & _). split; [exact X1|]. split; [exact X2|]. specialize (S2 _ Hx). destruct (Nat.lt_ge_cases m1 x) as [|X]; [assumption|exfalso]. destruct (R3 x ltac:(lia)) as (q & Q & _). congruence.
      + intros x Hx Lx. destruct (H2 x Hx Lx) as [X|[X|X]]; [left; lia|left; lia|now right].
      + lia.
      + intros Hl. specialize (R4 Hl). destruct (lp (S m1)) as [q|] eqn:Eq; [|reflexivity]. exfalso. destruct (between q (S m1) h Eq ltac:(lia)) as (q2 & Q & _). congruence. }
  assert (Z : (new_dsl (optimizer d) (learningRate d) (biasLearningRate d) (loss d), @nil (N * nat)) = (cut 0 d, known 0)).
  { f_equal. apply dsl_ext; [reflexivity|reflexivity|]. cbn [cut inputReceptors]. rewrite (de_heads _ _ D), filter_le_seq by lia. reflexivity. }
  rewrite Z, LOOP; [cbn [obind fst]; now rewrite cut_all| | | | |].
  - rewrite (de_heads _ _ D). apply filter_sorted, seq_sorted.
  - intros h Hh. rewrite (de_heads _ _ D) in Hh. apply filter_In in Hh as [Hh A]. apply in_seq in Hh. split; [lia|]. split; [|lia]. unfold accepting in A. destruct (nth_error (vertices d) (h - 1)) as [v|] eqn:Ev; [|discriminate].
    destruct (input_or_parent _ _ Ev) as [P _]. specialize (P A). replace (S (h - 1)) with h in P by lia. unfold last_parent. now rewrite P.
  - intros h Hh L. right. rewrite (de_heads _ _ D). apply filter_In. split; [apply in_seq; lia|]. unfold accepting. destruct (nth_error (vertices d) (h - 1)) as [v|] eqn:Ev; [|apply nth_error_None in Ev; lia].
    destruct (input_or_parent _ _ Ev) as [_ P]. destruct (acceptsInput v); [reflexivity|]. exfalso. apply (P eq_refl). replace (S (h - 1)) with h by lia. now apply lp_none.
  - lia.
  - intros _. destruct (lp 1) as [q|] eqn:Eq; [|reflexivity]. apply lp_bounds in Eq. lia.
Qed.
End Dfs.
