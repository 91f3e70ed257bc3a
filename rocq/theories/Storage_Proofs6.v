From Coq Require Import NArith Arith List Lia Bool.
From Verif Require Import Outcome TensorFile_Model TensorFile_Spec Storage_Model Storage_Spec.
Import ListNotations.
Open Scope nat_scope.

Lemma set_at_spec {A} (a : A) : forall l i, (i < length l -> exists l', set_at l i a = Ok l' /\ length l' = length l /\ forall j, nth_error l' j = if j =? i then Some a else nth_error l j) /\
  (length l <= i -> set_at l i a = Throw).
Proof.
  induction l as [|x l IH]; intro i; split; cbn [length set_at]; [lia|reflexivity| |].
  - intro H. destruct i as [|i].
    + exists (a :: l). repeat split. intros [|j]; reflexivity.
    + destruct (IH i) as [I _]. destruct I as (l' & E & L & N); [lia|]. exists (x :: l'). rewrite E. repeat split; [cbn; lia|]. intros [|j]; [reflexivity|]. cbn [nth_error]. rewrite N. reflexivity.
  - intro H. destruct i as [|i]; [lia|]. destruct (IH i) as [_ I]. rewrite I by lia. reflexivity.
Qed.
Lemma forall_nth {A} (P : A -> Prop) l : Forall P l <-> forall i x, nth_error l i = Some x -> P x.
Proof.
  rewrite Forall_forall. split; intros H; [intros i x E; apply H; eapply nth_error_In; exact E|]. intros x Hx. apply In_nth_error in Hx. destruct Hx as [i E]. eapply H; exact E.
Qed.

Lemma setVal_spec {A} R C K (d : cube A) r c k a : box R C K d ->
  (r < R -> c < C -> k < K -> exists d', setVal d r c k a = Ok d' /\ box R C K d' /\
     forall r' c' k', cell d' r' c' k' = if (r' =? r) && (c' =? c) && (k' =? k) then Some a else cell d r' c' k') /\
  (~ (r < R /\ c < C /\ k < K) -> setVal d r c k a = Throw).
Proof.
  intros [HK HF]. unfold setVal, at_. destruct (nth_error d k) as [ch|] eqn:Ek.
  2: { split; [|reflexivity]. intros _ _ Hk. apply nth_error_None in Ek. lia. }
  assert (Hk : k < K) by (rewrite <- HK; apply nth_error_Some; congruence). cbn [obind].
  assert (Hch : length ch = R /\ Forall (fun row => length row = C) ch) by (rewrite forall_nth in HF; eapply HF; exact Ek). destruct Hch as [Lr Fc].
  destruct (nth_error ch r) as [row|] eqn:Er.
  2: { apply nth_error_None in Er. split; [lia|reflexivity]. }
  assert (Hr : r < R) by (rewrite <- Lr; apply nth_error_Some; congruence). cbn [obind].
  assert (Lc : length row = C) by (rewrite forall_nth in Fc; eapply Fc; exact Er).
  destruct (set_at_spec a row c) as [S1 S2]. split.
  - intros _ Hc _. destruct S1 as (row' & -> & L1 & N1); [lia|]. cbn [obind]. destruct (set_at_spec row' ch r) as [T1 _]. destruct T1 as (ch' & -> & L2 & N2); [lia|]. cbn [obind].
    destruct (set_at_spec ch' d k) as [U1 _]. destruct U1 as (d' & -> & L3 & N3); [lia|]. exists d'. split; [reflexivity|]. split.
    + split; [lia|]. apply forall_nth. intros i x. rewrite N3. destruct (i =? k).
      * intro E. assert (ch' = x) as <- by congruence. split; [lia|]. apply forall_nth. intros j y. rewrite N2. destruct (j =? r); intro E'; [assert (row' = y) as <- by congruence; lia|].
        rewrite forall_nth in Fc. eapply Fc; exact E'.
      * intro E. rewrite forall_nth in HF. eapply HF; exact E.
    + intros r' c' k'. unfold cell. rewrite N3. destruct (k' =? k) eqn:Q3; [|now rewrite andb_false_r].
      apply Nat.eqb_eq in Q3. subst k'. rewrite Ek, N2. destruct (r' =? r) eqn:Q2; [|reflexivity]. apply Nat.eqb_eq in Q2. subst r'. rewrite Er, N1. cbn [andb]. now rewrite andb_true_r.
  - intro Hn. rewrite S2 by lia. reflexivity.
Qed.

(** A list of assignments. *)
Notation write A := (nat * nat * nat * A)%type (only parsing).
Fixpoint run {A} (ops : list (nat * nat * nat * A)) (d : cube A) : outcome (cube A) :=
  match ops with
  | [] => Ok d
  | (r, c, k, a) :: ops => do d <- setVal d r c k a; run ops d
  end.
Lemma run_app {A} ops ops' : forall d : cube A, run (ops ++ ops') d = (do d <- run ops d; run ops' d).
Proof. induction ops as [|[[[r c] k] a] ops IH]; intro d; [reflexivity|]. cbn [app run]. destruct (setVal d r c k a); cbn [obind]; [apply IH|reflexivity|reflexivity]. Qed.
Lemma run_spec {A} R C K ops : forall d : cube A, box R C K d ->
  ((forall r c k a, In (r, c, k, a) ops -> r < R /\ c < C /\ k < K) -> exists d', run ops d = Ok d' /\ box R C K d' /\
     forall r c k, (exists a, In (r, c, k, a) ops /\ cell d' r c k = Some a) \/ ((forall a, ~ In (r, c, k, a) ops) /\ cell d' r c k = cell d r c k)) /\
  ((exists r c k a, In (r, c, k, a) ops /\ ~ (r < R /\ c < C /\ k < K)) -> run ops d = Throw).
Proof.
  induction ops as [|[[[r c] k] a] ops IH]; intros d B.
  - split; [|intros (r & c & k & a & [] & _)]. intros _. exists d. split; [reflexivity|]. split; [exact B|]. intros r c k. right. split; [intros a []|reflexivity].
  - cbn [run]. destruct (setVal_spec R C K d r c k a B) as [S1 S2]. split.
    + intro H. destruct (H r c k a (or_introl eq_refl)) as (Hr & Hc & Hk). destruct (S1 Hr Hc Hk) as (d1 & -> & B1 & N1). cbn [obind].
      destruct (IH d1 B1) as [I _]. destruct I as (d' & E & B' & N'); [intros; eapply H; right; eassumption|]. exists d'. split; [exact E|]. split; [exact B'|].
      intros r' c' k'. destruct (N' r' c' k') as [(a' & Hin & Ec)|[Hno Ec]]; [left; exists a'; split; [now right|exact Ec]|]. rewrite N1 in Ec.
      destruct ((r' =? r) && (c' =? c) && (k' =? k)) eqn:Q.
      * apply andb_true_iff in Q. destruct Q as [Q Q3]. apply andb_true_iff in Q. destruct Q as [Q1 Q2]. apply Nat.eqb_eq in Q1, Q2, Q3. subst. left. exists a. split; [now left|exact Ec].
      * right. split; [|exact Ec]. intros a' [E'|Hin]; [|exact (Hno a' Hin)]. injection E' as -> -> -> _. now rewrite !Nat.eqb_refl in Q.
    + intros (r' & c' & k' & a' & [E'|Hin] & Hn).
      * injection E' as -> -> -> ->. now rewrite S2.
      * destruct (le_lt_dec R r) as [Hr|Hr]; [rewrite S2 by lia; reflexivity|]. destruct (le_lt_dec C c) as [Hc|Hc]; [rewrite S2 by lia; reflexivity|]. destruct (le_lt_dec K k) as [Hk|Hk]; [rewrite S2 by lia; reflexivity|].
        destruct (S1 Hr Hc Hk) as (d1 & -> & B1 & _). cbn [obind]. apply (IH d1 B1). exists r', c', k', a'. auto.
Qed.

Lemma each_run {A X} (body : nat -> X -> cube A -> outcome (cube A)) (g : nat -> X -> list (nat * nat * nat * A)) : (forall i x d, body i x d = run (g i x) d) ->
  forall l i d, each body i l d = run (concat (map (fun p => g (fst p) (snd p)) (combine (seq i (length l)) l))) d.
Proof.
  intro H. induction l as [|x l IH]; intros i d; [reflexivity|]. cbn [each length seq combine map concat fst snd]. rewrite run_app, H. destruct (run (g i x) d); cbn [obind]; [apply IH|reflexivity|reflexivity].
Qed.
Lemma in_indexed {A} (l : list A) : forall s i x, In (i, x) (combine (seq s (length l)) l) <-> s <= i /\ nth_error l (i - s) = Some x.
Proof.
  induction l as [|y l IH]; intros s i x; cbn [length seq combine In].
  - split; [intros []|intros [_ H]; destruct (i - s); discriminate].
  - rewrite IH. split.
    + intros [E|[L E]].
      * injection E as -> ->. rewrite Nat.sub_diag. split; [lia|reflexivity].
      * split; [lia|]. replace (i - s) with (S (i - S s)) by lia. exact E.
    + intros [L E]. destruct (Nat.eq_dec i s) as [->|Hn]; [rewrite Nat.sub_diag in E; left; cbn in E; congruence|right]. split; [lia|]. replace (i - s) with (S (i - S s)) in E by lia. exact E.
Qed.
Lemma in_writes {A X} (g : nat -> X -> list (nat * nat * nat * A)) l p : In p (concat (map (fun q => g (fst q) (snd q)) (combine (seq 0 (length l)) l))) <-> exists i x, nth_error l i = Some x /\ In p (g i x).
Proof.
  rewrite in_concat. split.
  - intros (w & Hw & Hp). apply in_map_iff in Hw. destruct Hw as ([i x] & <- & Hi). apply in_indexed in Hi. rewrite Nat.sub_0_r in Hi. exists i, x. split; [apply Hi|exact Hp].
  - intros (i & x & E & Hp). exists (g i x). split; [|exact Hp]. apply in_map_iff. exists (i, x). split; [reflexivity|]. apply in_indexed. rewrite Nat.sub_0_r. split; [lia|exact E].
Qed.

Definition indexed {X W} (g : nat -> X -> list W) (l : list X) : list W := concat (map (fun q => g (fst q) (snd q)) (combine (seq 0 (length l)) l)).
Definition row_writes {A} (encode : N -> A) (k r : nat) (row : list N) : list (nat * nat * nat * A) := indexed (fun c v => [(r, c, k, encode v)]) row.
Definition channel_writes {A} (encode : N -> A) (k : nat) (ch : list (list N)) : list (nat * nat * nat * A) := indexed (row_writes encode k) ch.
Definition all_writes {A} (encode : N -> A) (values : cube N) : list (nat * nat * nat * A) := indexed (channel_writes encode) values.
Lemma row_run {A} (encode : N -> A) k r row d : each (fun c v d => setVal d r c k (encode v)) 0 row d = run (row_writes encode k r row) d.
Proof. unfold row_writes, indexed. apply (each_run _ (fun c v => [(r, c, k, encode v)])). intros i x d'. cbn [run]. destruct (setVal d' r i k (encode x)); reflexivity. Qed.
Lemma channel_run {A} (encode : N -> A) k ch d : each (fun r row d => each (fun c v d => setVal d r c k (encode v)) 0 row d) 0 ch d = run (channel_writes encode k ch) d.
Proof. apply (each_run _ (row_writes encode k)). intros i x d'. apply row_run. Qed.
Lemma all_run {A} (encode : N -> A) values d :
  each (fun k ch d => each (fun r row d => each (fun c v d => setVal d r c k (encode v)) 0 row d) 0 ch d) 0 values d = run (all_writes encode values) d.
Proof. apply (each_run _ (channel_writes encode)). intros i x d'. apply channel_run. Qed.
Lemma in_row_writes {A} (encode : N -> A) k r row r' c' k' a : In (r', c', k', a) (row_writes encode k r row) <-> r' = r /\ k' = k /\ exists v, nth_error row c' = Some v /\ a = encode v.
Proof.
  unfold row_writes, indexed. rewrite (in_writes (fun c v => [(r, c, k, encode v)])). split.
  - intros (i & v & E & [H|[]]). injection H as <- <- <- <-. repeat split. exists v. auto.
  - intros (-> & -> & v & E & ->). exists c', v. split; [exact E|now left].
Qed.
Lemma in_channel_writes {A} (encode : N -> A) k ch r c k' a : In (r, c, k', a) (channel_writes encode k ch) <-> k' = k /\ exists row v, nth_error ch r = Some row /\ nth_error row c = Some v /\ a = encode v.
Proof.
  unfold channel_writes, indexed. rewrite (in_writes (row_writes encode k)). split.
  - intros (i & row & E & H). apply in_row_writes in H. destruct H as (-> & -> & v & Ev & ->). split; [reflexivity|]. exists row, v. auto.
  - intros (-> & row & v & E & Ev & ->). exists r, row. split; [exact E|]. apply in_row_writes. repeat split. exists v. auto.
Qed.
Lemma in_all_writes {A} (encode : N -> A) values r c k a : In (r, c, k, a) (all_writes encode values) <-> exists v, cell values r c k = Some v /\ a = encode v.
Proof.
  unfold all_writes, indexed, cell. rewrite (in_writes (channel_writes encode)). split.
  - intros (i & ch & E & H). apply in_channel_writes in H. destruct H as (-> & row & v & Er & Ev & ->). exists v. rewrite E, Er. auto.
  - intros (v & E & ->). destruct (nth_error values k) as [ch|] eqn:Ek; [|discriminate]. destruct (nth_error ch r) as [row|] eqn:Er; [|discriminate]. exists k, ch. split; [exact Ek|]. apply in_channel_writes. split; [reflexivity|]. exists row, v. auto.
Qed.

Lemma allocate_box {A} (z : A) R C K : box R C K (allocate z R C K).
Proof.
  unfold box, allocate. rewrite repeat_length. split; [reflexivity|]. apply Forall_forall. intros ch H. apply repeat_spec in H. subst. rewrite repeat_length. split; [reflexivity|].
  apply Forall_forall. intros row H. apply repeat_spec in H. subst. now rewrite repeat_length.
Qed.
Lemma nth_error_repeat' {A} (a : A) n i : i < n -> nth_error (repeat a n) i = Some a.
Proof. revert i. induction n as [|n IH]; intros i H; [lia|]. destruct i; [reflexivity|]. cbn. apply IH. lia. Qed.
Lemma allocate_cell {A} (z : A) R C K r c k : r < R -> c < C -> k < K -> cell (allocate z R C K) r c k = Some z.
Proof. intros Hr Hc Hk. unfold cell, allocate. now rewrite !nth_error_repeat' by assumption. Qed.

Definition in_bounds (R C K : nat) (values : cube N) : Prop := forall r c k v, cell values r c k = Some v -> r < R /\ c < C /\ k < K.
Lemma writes_result {A} (zero : A) encode R C K values :
  (in_bounds R C K values -> exists d, run (all_writes encode values) (allocate zero R C K) = Ok d /\ box R C K d /\
     forall r c k, r < R -> c < C -> k < K -> cell d r c k = Some (match cell values r c k with Some v => encode v | None => zero end)) /\
  ((exists r c k v, cell values r c k = Some v /\ ~ (r < R /\ c < C /\ k < K)) -> run (all_writes encode values) (allocate zero R C K) = Throw).
Proof.
  destruct (run_spec R C K (all_writes encode values) _ (allocate_box zero R C K)) as [S1 S2]. split.
  - intro H. destruct S1 as (d & E & B & N).
    + intros r c k a Hin. apply in_all_writes in Hin. destruct Hin as (v & Ev & _). eapply H; exact Ev.
    + exists d. split; [exact E|]. split; [exact B|]. intros r c k Hr Hc Hk. destruct (N r c k) as [(a & Hin & Ec)|[Hno Ec]]; rewrite Ec.
      * apply in_all_writes in Hin. destruct Hin as (v & -> & ->). reflexivity.
      * rewrite allocate_cell by assumption. destruct (cell values r c k) as [v|] eqn:Ev; [|reflexivity]. exfalso. apply (Hno (encode v)). apply in_all_writes. exists v. auto.
  - intros (r & c & k & v & Ev & Hn). apply S2. exists r, c, k, (encode v). split; [apply in_all_writes; exists v; auto|exact Hn].
Qed.
Lemma from_lists_result {A} (zero : A) encode (row : list N) rest channels : let values := (row :: rest) :: channels in
  let R := S (length rest) in let C := length row in
  ((forall r c k v, cell values r c k = Some v -> r < R /\ c < C) -> exists d, from_lists zero encode values = Ok d /\ box R C (length values) d /\
     forall r c k, r < R -> c < C -> k < length values -> cell d r c k = Some (match cell values r c k with Some v => encode v | None => zero end)) /\
  ((exists r c k v, cell values r c k = Some v /\ ~ (r < R /\ c < C)) -> from_lists zero encode values = Throw).
Proof.
  intros values R C. assert (E : from_lists zero encode values = run (all_writes encode values) (allocate zero R C (length values))).
  { unfold from_lists, values. apply all_run. }
  rewrite E. destruct (writes_result zero encode R C (length values) values) as [W1 W2].
  assert (K : forall r c k v, cell values r c k = Some v -> k < length values).
  { intros r c k v Ev. apply nth_error_Some. unfold cell in Ev. intro En. rewrite En in Ev. discriminate. }
  clearbody values. split.
  - intro H. apply W1. intros r c k v Ev. pose proof (H r c k v Ev). pose proof (K r c k v Ev). lia.
  - intros (r & c & k & v & Ev & Hn). apply W2. exists r, c, k, v. split; [exact Ev|]. lia.
Qed.
Lemma from_rows_result {A} (zero : A) encode (row : list N) rest : let values := row :: rest in let C := length row in
  ((forall r c v, cell [values] r c 0 = Some v -> c < C) -> exists d, from_rows zero encode values = Ok d /\ box (length values) C 1 d /\
     forall r c, r < length values -> c < C -> cell d r c 0 = Some (match cell [values] r c 0 with Some v => encode v | None => zero end)) /\
  ((exists r c v, cell [values] r c 0 = Some v /\ ~ c < C) -> from_rows zero encode values = Throw).
Proof.
  intros values C. assert (E : from_rows zero encode values = run (all_writes encode [values]) (allocate zero (length values) C 1)).
  { unfold from_rows, values. unfold all_writes, indexed. cbn [length seq combine map concat fst snd]. rewrite app_nil_r. apply channel_run. }
  rewrite E. destruct (writes_result zero encode (length values) C 1 [values]) as [W1 W2].
  assert (K : forall r c k v, cell [values] r c k = Some v -> k = 0 /\ r < length values).
  { intros r c k v Ev. unfold cell in Ev. destruct k as [|[|k]]; cbn [nth_error] in Ev; try discriminate. split; [reflexivity|]. apply nth_error_Some. intro En. rewrite En in Ev. discriminate. }
  clearbody values. split.
  - intro H. destruct W1 as (d & Ed & B & N).
    + intros r c k v Ev. destruct (K r c k v Ev) as [-> Hr]. pose proof (H r c v Ev). lia.
    + exists d. split; [exact Ed|]. split; [exact B|]. intros r c Hr Hc. apply N; lia.
  - intros (r & c & v & Ev & Hn). apply W2. exists r, c, 0, v. split; [exact Ev|]. lia.
Qed.

(** A box is its own value. *)
Lemma box_cells {A} R C K (d d' : cube A) : box R C K d -> box R C K d' -> (forall r c k, r < R -> c < C -> k < K -> cell d r c k = cell d' r c k) -> d = d'.
Proof.
  intros [L1 F1] [L2 F2] H. rewrite forall_nth in F1, F2.
  assert (X : forall B (l l' : list B) n, length l = n -> length l' = n -> (forall i, i < n -> nth_error l i = nth_error l' i) -> l = l').
  { intros B. induction l as [|x l IH]; intros l' n E1 E2 E; destruct l' as [|x' l']; cbn [length] in *; try lia; [reflexivity|]. pose proof (E 0 ltac:(lia)) as E0. cbn in E0.
    f_equal; [congruence|]. apply (IH l' (n - 1)); [lia|lia|]. intros i Hi. apply (E (S i)). lia. }
  apply (X _ _ _ K L1 L2). intros k Hk. destruct (nth_error d k) as [ch|] eqn:E1; [|apply nth_error_None in E1; lia]. destruct (nth_error d' k) as [ch'|] eqn:E2; [|apply nth_error_None in E2; lia]. f_equal.
  destruct (F1 _ _ E1) as [R1 G1]. destruct (F2 _ _ E2) as [R2 G2]. rewrite forall_nth in G1, G2. apply (X _ _ _ R R1 R2). intros r Hr.
  destruct (nth_error ch r) as [row|] eqn:E3; [|apply nth_error_None in E3; lia]. destruct (nth_error ch' r) as [row'|] eqn:E4; [|apply nth_error_None in E4; lia]. f_equal.
  apply (X _ _ _ C (G1 _ _ E3) (G2 _ _ E4)). intros c Hc. pose proof (H r c k Hr Hc Hk) as Q. unfold cell in Q. now rewrite E1, E2, E3, E4 in Q.
Qed.
Lemma cell_map3 {A B} (f : A -> B) d r c k : cell (map3 f d) r c k = option_map f (cell d r c k).
Proof. unfold cell, map3. rewrite nth_error_map. destruct (nth_error d k) as [ch|]; [|reflexivity]. cbn [option_map]. rewrite nth_error_map. destruct (nth_error ch r) as [row|]; [|reflexivity]. cbn [option_map]. apply nth_error_map. Qed.
Lemma box_cell {A} R C K (d : cube A) : box R C K d -> (forall r c k v, cell d r c k = Some v -> r < R /\ c < C /\ k < K) /\ (forall r c k, r < R -> c < C -> k < K -> exists v, cell d r c k = Some v).
Proof.
  intros [L F]. rewrite forall_nth in F. split.
  - intros r c k v E. unfold cell in E. destruct (nth_error d k) as [ch|] eqn:E1; [|discriminate]. destruct (F _ _ E1) as [R1 G]. rewrite forall_nth in G. destruct (nth_error ch r) as [row|] eqn:E2; [|discriminate].
    pose proof (G _ _ E2) as C1. repeat split; [rewrite <- R1; apply nth_error_Some; congruence|rewrite <- C1; apply nth_error_Some; congruence|rewrite <- L; apply nth_error_Some; congruence].
  - intros r c k Hr Hc Hk. unfold cell. destruct (nth_error d k) as [ch|] eqn:E1; [|apply nth_error_None in E1; lia]. destruct (F _ _ E1) as [R1 G]. rewrite forall_nth in G.
    destruct (nth_error ch r) as [row|] eqn:E2; [|apply nth_error_None in E2; lia]. pose proof (G _ _ E2) as C1. destruct (nth_error row c) as [v|] eqn:E3; [now exists v|apply nth_error_None in E3; lia].
Qed.
Lemma map3_box {A B} (f : A -> B) R C K d : box R C K d -> box R C K (map3 f d).
Proof.
  intros [L F]. unfold map3. split; [now rewrite map_length|]. rewrite Forall_map. eapply Forall_impl; [|exact F]. intros ch [H1 H2]. split; [now rewrite map_length|]. rewrite Forall_map. eapply Forall_impl; [|exact H2]. intros row. now rewrite map_length.
Qed.
