(** The shapes of the network of a task. *)
From Coq Require Import List Arith Bool NArith ZArith QArith Reals Lia.
From Verif Require Import Outcome Chars NumText_Model Tensor_Model Graph_Model Graph_Spec Net_Model Net_Spec Net_Graph ModelFile_Model ModelFile_Spec ModelFile_Proofs ModelFile_Text ModelFile_Order ModelFile_Props TaskNet_Model TaskNet_Spec TaskNet_Proofs.
Import ListNotations.
Local Open Scope nat_scope.

Lemma count_adopted : forall ps n i w, 1 <= w <= n -> count_occ Nat.eq_dec (adopted ps n i) w = count_occ Nat.eq_dec (nth (w - 1) ps []) i.
Proof.
  intros ps n i w Hw. unfold adopted.
  assert (R : forall k a, count_occ Nat.eq_dec (repeat a k) w = if Nat.eq_dec a w then k else 0).
  { intros k a. induction k as [|k IH]; cbn [repeat count_occ]; [now destruct (Nat.eq_dec a w)|]. rewrite IH. now destruct (Nat.eq_dec a w). }
  assert (G : forall l, NoDup l -> count_occ Nat.eq_dec (flat_map (fun w => repeat w (count_occ Nat.eq_dec (nth (w - 1) ps []) i)) l) w = if in_dec Nat.eq_dec w l then count_occ Nat.eq_dec (nth (w - 1) ps []) i else 0).
  { induction l as [|a l IH]; intros Hl; [reflexivity|]. inversion Hl; subst. cbn [flat_map]. rewrite count_occ_app, R, IH by assumption. destruct (in_dec Nat.eq_dec w (a :: l)) as [I|I].
    - destruct (Nat.eq_dec a w) as [<-|N]; [destruct (in_dec Nat.eq_dec a l); [contradiction|lia]|]. destruct (in_dec Nat.eq_dec w l) as [J|J]; [lia|]. destruct I; contradiction.
    - destruct (Nat.eq_dec a w) as [<-|N]; [elim I; now left|]. destruct (in_dec Nat.eq_dec w l) as [J|J]; [elim I; now right|reflexivity]. }
  rewrite G by apply seq_NoDup. destruct (in_dec Nat.eq_dec w (seq 1 n)) as [I|I]; [reflexivity|]. elim I. apply in_seq. lia.
Qed.
Lemma nth_repeat_lt : forall {A} (a d : A) m n, n < m -> nth n (repeat a m) d = a.
Proof. intros A a d m. induction m as [|m IH]; intros [|n] H; cbn; try lia; [reflexivity|apply IH; lia]. Qed.
Lemma one_parent : forall ps d b w p, described ps d -> (forall i v, nth_error (vertices d) i = Some v -> nth i ps [] = [] -> acceptsInput v = true) -> build d = Ok b ->
  1 <= w <= length (vertices d) -> nth (w - 1) ps [] = [p] -> arriving w (connections b) = [p].
Proof.
  intros ps d b w p D HI B Hw Hp. assert (Hpr : 1 <= p <= w - 1) by (apply (de_before _ _ D); rewrite Hp; now left).
  assert (All : forall c, In c (filter (fun c => Nat.eqb (snd c) w) (connections b)) -> c = (p, w)).
  { intros [u w'] I. apply filter_In in I as [I E]. cbn [snd] in E. apply Nat.eqb_eq in E as ->. apply (conn_iff ps d b D HI B) in I as (_ & _ & I). rewrite Hp in I. destruct I as [->|[]]. reflexivity. }
  assert (Cnt : length (filter (fun c => Nat.eqb (snd c) w) (connections b)) = 1).
  { assert (Q : length (filter (fun c => Nat.eqb (snd c) w) (connections b)) = length (filter (fun c => Nat.eqb (snd c) w) (filter (from_node p) (connections b)))).
    { clear - All. induction (connections b) as [|c l IH]; [reflexivity|]. cbn [filter] in *. unfold from_node at 1. destruct (Nat.eqb (snd c) w) eqn:E.
      - rewrite (All c (or_introl eq_refl)) in *. cbn [fst snd] in *. rewrite Nat.eqb_refl. cbn [filter snd]. rewrite Nat.eqb_refl. cbn [length]. f_equal. apply IH. intros; apply All; now right.
      - destruct (Nat.eqb (fst c) p); cbn [filter]; [rewrite E|]; apply IH; exact All. }
    rewrite Q, (from_edges ps d b D HI B) by lia.
    assert (M : forall es, length (filter (fun c : nat * nat => Nat.eqb (snd c) w) (map (fun e => (p, e)) es)) = count_occ Nat.eq_dec es w).
    { induction es as [|e es IH]; [reflexivity|]. cbn [map filter snd count_occ]. destruct (Nat.eq_dec e w) as [->|N]; [rewrite Nat.eqb_refl; cbn [length]; now rewrite IH|]. destruct (Nat.eqb_spec e w); [contradiction|exact IH]. }
    rewrite M. unfold edges_at. destruct (nth_error (vertices d) (p - 1)) as [v|] eqn:E; [|apply nth_error_None in E; lia].
    rewrite (de_edges _ _ D _ _ E), count_adopted by exact Hw. rewrite Hp. replace (S (p - 1)) with p by lia. cbn [count_occ]. destruct (Nat.eq_dec p p); [reflexivity|contradiction]. }
  unfold arriving. destruct (filter _ (connections b)) as [|c [|? ?]]; cbn [length] in Cnt; try discriminate. rewrite (All c (or_introl eq_refl)). reflexivity.
Qed.

Lemma eqb1 : forall n, shape_eqb (1, n, 1) (1, n, 1) = true.
Proof. intros n. unfold shape_eqb. cbn [Nat.eqb andb]. now rewrite Nat.eqb_refl. Qed.
Lemma entering_flat : forall v n, entering v (1, n, 1) = (1, n, 1).
Proof. intros v n. unfold entering, flattened. now destruct (1 <? _). Qed.
Definition ok (v : vertex) (ss : list Layer_Model.shape) (s : Layer_Model.shape) : Prop := gives v ss = Some s /\ sends_back v false ss.
Lemma full_ok : forall v n m i, node_type v = full -> input_shape v = (1, n, 1) -> output_shape v = (1, m, 1) -> i = (1, n, 1) -> ok v [i] (1, m, 1).
Proof.
  intros v n m i Et Ei Eo ->. unfold ok, gives, makes, sends_back. rewrite Et, entering_flat, Ei, Eo. cbn [volume fst snd]. rewrite Nat.mul_1_l, Nat.mul_1_r, Nat.eqb_refl. cbn [Nat.eqb andb]. rewrite Nat.mul_1_l, Nat.mul_1_r, eqb1, andb_false_r.
  split; [reflexivity|]. lia.
Qed.
Lemma drop_ok : forall v n i, node_type v = dropout -> use_bias v = false -> input_shape v = (1, n, 1) -> i = (1, n, 1) -> ok v [i] (1, n, 1).
Proof. intros v n i Et Eb Ei ->. unfold ok, gives, makes, sends_back. rewrite Et, entering_flat, Eb, Ei. cbn [fst]. split; [reflexivity|lia]. Qed.
Lemma nth_map_error : forall {A C} (f : A -> C) l j v, nth_error (map f l) j = Some v -> exists x, nth_error l j = Some x /\ v = f x.
Proof. intros A C f l. induction l as [|x l IH]; intros [|j] v H; cbn in *; try discriminate; [injection H as <-; eauto|auto]. Qed.

(** ** After the first layer *)
Section Tail.
Context (expected : list shape) (g : goal).
Notation cce := (categorical expected g).
Notation memory := (is_memory g).
Notation total := (1, total_values expected, 1)%N.
Definition hidden_parents (b : nat) : list (list nat) :=
  [[b]; [S b]; [S (S b)]] ++ (if cce then [3 + b] :: repeat [4 + b] (length expected) else repeat [3 + b] (length expected)).
Lemma outputs_parents : forall l p i id, parents_of (outputs_from expected g p i id l) = repeat [p] (length l).
Proof. induction l as [|s l IH]; intros p i id; [reflexivity|]. cbn [outputs_from app parents_of length repeat]. now rewrite IH. Qed.
Lemma settings_parents : forall id, parents_of (settings expected g id) = [].
Proof. intros id. unfold settings. destruct cce, memory; reflexivity. Qed.
Lemma rest_parents : forall given complexity b o1 conv, parents_of (rest given expected g complexity b o1 conv) = hidden_parents b.
Proof.
  intros given complexity b o1 conv. unfold rest, hidden_parents. cbv zeta. rewrite !parents_of_app, !settings_parents. cbn [parents_of app]. destruct cce; cbn [parents_of]; rewrite outputs_parents; reflexivity.
Qed.
Context (d : dsl) (net : building) (pps : list (list nat)) (pre : list vertex) (l1 : vertex) (b : nat) (o1 o2 : shape) (r1 c1 : nat).
Context (D : described (pps ++ hidden_parents b) d) (HI : forall i v, nth_error (vertices d) i = Some v -> nth i (pps ++ hidden_parents b) [] = [] -> acceptsInput v = true) (B : build d = Ok net).
Context (Hp : length pps = b) (Hb : b = S (length pre)) (Hv : vertices d = pre ++ l1 :: hidden expected g b o1 o2).
Context (Ho1 : nat_shape o1 = (r1, c1, 1)) (Hr1 : 1 <= r1) (Ho2 : exists s, o2 = (1, s, 1)%N) (He : Forall (fun s => exists e, s = (1, e, 1)%N) expected).
Context (psh : list Layer_Model.shape) (Hs : length psh = length pre).
Definition dropped : Layer_Model.shape := if 1 <? r1 then (1, r1 * c1, 1) else (r1, c1, 1).
Definition tail_shapes : list Layer_Model.shape :=
  [nat_shape o1; dropped; nat_shape o2; nat_shape o2] ++ (if cce then [nat_shape total] else []) ++ map nat_shape expected.
Definition sh (id : nat) : Layer_Model.shape := nth (id - 1) (psh ++ tail_shapes) (0, 0, 0).
Lemma sh_tail : forall j, sh (b + j) = nth j tail_shapes (0, 0, 0).
Proof. intros j. unfold sh. rewrite app_nth2 by lia. f_equal. lia. Qed.
Lemma arrives : forall j p v, nth j (hidden_parents b) [] = [p] -> nth_error (hidden expected g b o1 o2) j = Some v -> arriving (S b + j) (connections net) = [p].
Proof.
  intros j p v Hj Hn. apply (one_parent _ d net (S b + j) p D HI B).
  - assert (j < length (hidden expected g b o1 o2)) by (apply nth_error_Some; congruence). rewrite Hv, app_length. cbn [length]. lia.
  - rewrite app_nth2 by lia. replace (S b + j - 1 - length pps) with j by lia. exact Hj.
Qed.
Lemma wide_ok : forall v m, node_type v = full -> input_shape v = (r1, c1, 1) -> output_shape v = (1, m, 1) -> ok v [dropped] (1, m, 1).
Proof.
  intros v m Et Ei Eo. unfold ok, gives, makes, sends_back. rewrite Et, Ei, Eo.
  assert (En : entering v dropped = (1, r1 * c1, 1)).
  { unfold entering, dropped. rewrite Ei. cbn [fst]. destruct (Nat.ltb_spec 1 r1); [reflexivity|]. assert (r1 = 1) as -> by lia. now rewrite Nat.mul_1_l. }
  rewrite En. cbn [volume fst snd]. rewrite Nat.mul_1_r, Nat.eqb_refl. cbn [Nat.eqb andb]. rewrite Nat.mul_1_l, Nat.mul_1_r, eqb1, andb_false_r.
  split; [reflexivity|]. intros R. repeat constructor. unfold dropped. destruct (Nat.ltb_spec 1 r1); [|lia]. now left.
Qed.
Lemma tail_ok : forall j v, nth_error (hidden expected g b o1 o2) j = Some v -> acceptsInput v = false /\ ok v (map sh (arriving (S b + j) (connections net))) (sh (S b + j)).
Proof.
  intros j v H. destruct Ho2 as [s2 E2].
  assert (Sh : forall k, sh (S b + k) = nth (S k) tail_shapes (0, 0, 0)) by (intros k; replace (S b + k) with (b + S k) by lia; apply sh_tail).
  assert (A : forall p, nth j (hidden_parents b) [] = [p] -> map sh (arriving (S b + j) (connections net)) = [sh p]) by (intros p Hp'; now rewrite (arrives j p v Hp' H)).
  assert (S0 : sh b = nat_shape o1) by (replace b with (b + 0) by lia; rewrite sh_tail; reflexivity).
  assert (S1 : sh (S b) = dropped) by (replace (S b) with (S b + 0) by lia; rewrite Sh; reflexivity).
  assert (S2 : sh (S (S b)) = nat_shape o2) by (replace (S (S b)) with (S b + 1) by lia; rewrite Sh; reflexivity).
  assert (S3 : sh (3 + b) = nat_shape o2) by (replace (3 + b) with (S b + 2) by lia; rewrite Sh; reflexivity).
  assert (N2 : nat_shape o2 = (1, N.to_nat s2, 1)) by (rewrite E2; reflexivity).
  destruct j as [|[|j]].
  - cbn in H. injection H as <-. split; [reflexivity|]. rewrite (A b eq_refl), S0, Sh. cbn [nth tail_shapes app]. unfold ok, gives, makes, sends_back, entering, dropped. cbn [node_type plain use_bias andb]. unfold input_shape. cbn [inputShapes plain hd]. rewrite Ho1. cbn [fst].
    split; [|intros _; repeat constructor; cbn; lia]. destruct (Nat.ltb_spec 1 r1); [|reflexivity]. unfold flattened. destruct (Nat.eqb_spec r1 1); [lia|]. now rewrite Nat.mul_1_r.
  - cbn [nth_error hidden app] in H. injection H as <-. split; [reflexivity|]. rewrite (A (S b) eq_refl), S1, Sh. cbn [nth tail_shapes app]. rewrite N2.
    apply wide_ok; [reflexivity| |unfold output_shape; cbn [outputShape configured plain]; exact N2]. unfold input_shape. cbn [inputShapes configured plain hd]. exact Ho1.
  - assert (OUT : forall i k s, nth_error expected k = Some s -> forall n, i = (1, n, 1) -> nat_shape (if cce then total else o2) = (1, n, 1) ->
        ok (output_vertex expected g (if cce then total else o2) s) [i] (nat_shape s)).
    { intros i k s Hk n -> Ei. apply nth_error_In in Hk. rewrite Forall_forall in He. destruct (He s Hk) as [e ->]. change (nat_shape (1, e, 1)%N) with (1, N.to_nat e, 1). apply full_ok with (n := n); auto. }
    assert (NT : nat_shape total = (1, N.to_nat (total_values expected), 1)) by reflexivity.
    destruct j as [|j].
    + assert (v = plain dropout linear o2 o2 false false false (if cce then [4 + b] else seq (4 + b) (length expected))) as -> by (unfold hidden in H; destruct cce; cbn in H; injection H as <-; reflexivity).
      split; [reflexivity|]. rewrite (A (S (S b)) eq_refl), S2, Sh. cbn [nth tail_shapes app]. rewrite N2. apply drop_ok with (n := N.to_nat s2); auto.
    + unfold hidden in H. destruct cce eqn:Ec.
      * destruct j as [|j].
        -- cbn in H. injection H as <-. split; [reflexivity|]. rewrite (A (3 + b)) by (unfold hidden_parents; rewrite Ec; reflexivity). rewrite S3, Sh. unfold tail_shapes. rewrite Ec. cbn [nth app]. rewrite NT, N2. apply full_ok with (n := N.to_nat s2); auto.
        -- cbn [nth_error app] in H. apply nth_map_error in H as (s & Hk & ->). split; [reflexivity|]. rewrite (A (4 + b)).
           2: { unfold hidden_parents. rewrite Ec. cbn [nth app]. rewrite nth_repeat_lt by (apply nth_error_Some; congruence). reflexivity. }
           replace (4 + b) with (S b + 3) by lia. rewrite !Sh. unfold tail_shapes. rewrite Ec. cbn [nth app map]. specialize (OUT (nat_shape total) j s Hk _ NT NT). fold (nat_shape total) in *.
           rewrite (nth_indep _ _ (nat_shape (0, 0, 0)%N)) by (rewrite map_length; apply nth_error_Some; congruence). rewrite map_nth. rewrite (nth_error_nth _ _ _ Hk). exact OUT.
      * cbn [nth_error app] in H. apply nth_map_error in H as (s & Hk & ->). split; [reflexivity|]. rewrite (A (3 + b)).
        2: { unfold hidden_parents. rewrite Ec. cbn [nth app]. rewrite nth_repeat_lt by (apply nth_error_Some; congruence). reflexivity. }
        rewrite S3, Sh. unfold tail_shapes. rewrite Ec. cbn [nth app]. specialize (OUT (nat_shape o2) j s Hk _ N2 N2).
        rewrite (nth_indep _ _ (nat_shape (0, 0, 0)%N)) by (rewrite map_length; apply nth_error_Some; congruence). rewrite map_nth. rewrite (nth_error_nth _ _ _ Hk). exact OUT.
Qed.
End Tail.
