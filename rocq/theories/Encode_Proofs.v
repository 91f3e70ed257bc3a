From Coq Require Import Reals List Bool Arith NArith ZArith Ascii Lia Lra.
From Flocq Require Import Core IEEE754.BinarySingleNaN IEEE754.Binary IEEE754.Bits.
From Verif Require Import Outcome Chars Delimited_Model F32_Model F32_Proofs TensorFile_Proofs Scaling_Model Encode_Model.
Import ListNotations.
Local Open Scope nat_scope.

(** ** The map *)
Lemma mapping_NoDup labels : NoDup labels -> forall k m, (forall q, In q m -> ~ In (fst q) labels) ->
  fold_left (fun m p => (fst p, snd p) :: filter (fun q => negb (seq_eqb (fst q) (fst p))) m) (combine labels (seq k (length labels))) m =
  rev (combine labels (seq k (length labels))) ++ m.
Proof.
  intros Hn. induction Hn as [|l labels Hl Hn IH]; intros k m Hm; [reflexivity|]. cbn [length seq combine fold_left rev fst snd].
  assert (E : filter (fun q => negb (seq_eqb (fst q) l)) m = m).
  { clear - Hm. induction m as [|q m IH]; [reflexivity|]. cbn [filter]. destruct (seq_eqb_spec (fst q) l) as [E|E].
    - exfalso. apply (Hm q (or_introl eq_refl)). left. now symmetry.
    - cbn [negb]. f_equal. apply IH. intros q' Hq'. apply Hm. now right. }
  rewrite E. rewrite IH.
  - rewrite <- app_assoc. reflexivity.
  - intros q [<-|Hq]; [exact Hl|]. intro H. apply (Hm q Hq). now right.
Qed.

Lemma category_mapping_eq labels : NoDup labels -> category_mapping labels = rev (combine labels (seq 0 (length labels))).
Proof. intro H. unfold category_mapping. rewrite mapping_NoDup; [apply app_nil_r|exact H|intros q []]. Qed.

Lemma mapping_length labels : NoDup labels -> length (category_mapping labels) = length labels.
Proof. intro H. rewrite category_mapping_eq by exact H. rewrite rev_length, combine_length, seq_length. lia. Qed.

Lemma combine_seq_in (labels : list str) : forall k l i, In (l, i) (combine labels (seq k (length labels))) -> k <= i /\ nth_error labels (i - k) = Some l.
Proof.
  induction labels as [|x labels IH]; intros k l i H; [destruct H|]. cbn [length seq combine] in H. destruct H as [E|H].
  - injection E as -> ->. rewrite Nat.sub_diag. auto.
  - apply IH in H as [H1 H2]. split; [lia|]. replace (i - k) with (S (i - S k)) by lia. exact H2.
Qed.
Lemma combine_seq_in2 (labels : list str) : forall k l i, nth_error labels i = Some l -> In (l, k + i) (combine labels (seq k (length labels))).
Proof.
  induction labels as [|x labels IH]; intros k l i H; [destruct i; discriminate|]. destruct i as [|i]; cbn [length seq combine].
  - injection H as ->. left. f_equal. lia.
  - right. replace (k + S i) with (S k + i) by lia. now apply IH.
Qed.

Lemma map_at_known labels k i : NoDup labels -> nth_error labels i = Some k -> map_at (category_mapping labels) k = Ok i.
Proof.
  intros Hn Hi. unfold map_at. destruct (find _ _) as [q|] eqn:E.
  - apply find_some in E as [E1 E2]. destruct (seq_eqb_spec (fst q) k) as [Ek|]; [|discriminate]. subst k.
    rewrite category_mapping_eq in E1 by exact Hn. apply in_rev in E1. destruct q as [l j]. cbn [fst snd] in *.
    apply combine_seq_in in E1 as [_ E1]. rewrite Nat.sub_0_r in E1. f_equal.
    apply (NoDup_nth_error labels); [exact Hn|apply nth_error_Some; congruence|congruence].
  - exfalso. pose proof (find_none _ _ E (k, i)) as F. cbn [fst] in F.
    assert (In (k, i) (category_mapping labels)) as Hin.
    { rewrite category_mapping_eq by exact Hn. apply -> in_rev. apply (combine_seq_in2 labels 0 k i Hi). }
    specialize (F Hin). destruct (seq_eqb_spec k k); congruence.
Qed.

Lemma mapping_keys labels q : In q (category_mapping labels) -> In (fst q) labels.
Proof.
  unfold category_mapping. assert (G : forall (l : list (str * nat)) m, In q (fold_left (fun m p => (fst p, snd p) :: filter (fun q => negb (seq_eqb (fst q) (fst p))) m) l m) ->
    In q m \/ In (fst q) (map fst l)).
  { clear. induction l as [|p l IH]; intros m H; [now left|]. cbn [fold_left] in H. apply IH in H as [H|H].
    - destruct H as [<-|H]; [right; left; reflexivity|]. apply filter_In in H as [H _]. now left.
    - right. now right. }
  intro H. apply G in H as [[]|H]. apply in_map_iff in H as ((l & i) & <- & H). now apply in_combine_l in H.
Qed.

Lemma map_at_unknown labels k : ~ In k labels -> map_at (category_mapping labels) k = Throw.
Proof.
  intro H. unfold map_at. destruct (find _ _) as [q|] eqn:E; [|reflexivity]. exfalso.
  apply find_some in E as [E1 E2]. destruct (seq_eqb_spec (fst q) k) as [<-|]; [|discriminate]. now apply H, mapping_keys.
Qed.

Lemma omapM_throw {A B} (f : A -> outcome B) l x : (forall y, In y l -> f y <> UB) -> In x l -> f x = Throw -> omapM f l = Throw.
Proof.
  intros Hu Hx E. induction l as [|y l IH]; [destruct Hx|]. cbn [omapM]. destruct Hx as [->|Hx].
  - now rewrite E.
  - destruct (f y) eqn:Ey; cbn [obind]; [|reflexivity|exfalso; apply (Hu y); [now left|exact Ey]].
    rewrite IH; [reflexivity|intros z Hz; apply Hu; now right|exact Hx].
Qed.

(** ** Largest value of a row *)
Definition no_nan (x : binary32) : Prop := is_nan 24 128 x = false.
(** Order value: infinities at the ends. *)
Definition rv (x : binary32) : R := match x with B754_infinity _ _ s => if s then (- max32)%R else max32 | _ => val x end.

Lemma fgt_rv x y : no_nan x -> no_nan y -> (fgt x y = true <-> (rv y < rv x)%R).
Proof.
  intros Hx Hy. pose proof (val_lt_max x) as Bx. pose proof (val_lt_max y) as By. apply Rabs_def2 in Bx, By.
  pose proof (bpow_gt_0 radix2 128) as Bp.
  destruct (finite x) eqn:Fx, (finite y) eqn:Fy.
  - rewrite (fgt_true x y Fx Fy). destruct x, y; try discriminate; reflexivity.
  - destruct y as [s|s|s pl e|s m e b]; try discriminate. destruct x as [s'|s'|s' pl e|s' m e b]; try discriminate; destruct s; cbn [rv]; cbn in Bx; (split; [intro H|intro H]); try (now exfalso; revert H; cbn; try discriminate; lra); try (cbn; lra); try reflexivity.
    all: exfalso; revert H; try (cbn; discriminate); cbn in *; lra.
  - destruct x as [s|s|s pl e|s m e b]; try discriminate. destruct y as [s'|s'|s' pl e|s' m e b]; try discriminate; destruct s; cbn [rv]; cbn in By; (split; [intro H|intro H]); try (now exfalso; revert H; cbn; try discriminate; lra); try (cbn; lra); try reflexivity.
    all: exfalso; revert H; try (cbn; discriminate); cbn in *; lra.
  - destruct x as [s|s|s pl e|s m e b]; try discriminate. destruct y as [s'|s'|s' pl' e'|s' m' e' b']; try discriminate.
    destruct s, s'; cbn [rv]; (split; intro H); try reflexivity; try (now cbn in H); try lra; try (exfalso; cbn in H; discriminate).
Qed.

Lemma max_index_loop_spec all : Forall no_nan all -> forall pre row cur res, all = pre ++ row -> no_nan cur ->
  ((pre = [] \/ forall x, In x pre -> ~ (rv cur < rv x)%R) /\
   ((cur = neg_inf /\ res = 0 /\ forall x, In x pre -> rv x = rv neg_inf) \/
    (nth_error all res = Some cur /\ res < length pre /\ forall j x, j < res -> nth_error all j = Some x -> (rv x < rv cur)%R))) ->
  let k := max_index_loop (length pre) cur res row in
  (exists v, nth_error all k = Some v /\ (forall x, In x all -> (rv x <= rv v)%R) /\ forall j x, j < k -> nth_error all j = Some x -> (rv x < rv v)%R) \/ all = [].
Proof.
  intros Hall pre row. revert pre. induction row as [|v row IH]; intros pre cur res E Hc H; cbn [max_index_loop].
  - rewrite app_nil_r in E. subst pre. destruct H as [H1 [(-> & -> & H2)|(H2 & H3 & H4)]].
    + destruct all as [|x all]; [now right|]. left. exists x. split; [reflexivity|]. split; [|intros j y Hj; lia].
      intros y Hy. rewrite (H2 y Hy), (H2 x (or_introl eq_refl)). lra.
    + left. exists cur. split; [exact H2|]. split; [|exact H4]. intros x Hx. destruct H1 as [->|H1]; [destruct Hx|]. specialize (H1 x Hx). lra.
  - assert (Hv : no_nan v). { rewrite Forall_forall in Hall. apply Hall. rewrite E. apply in_or_app. right. now left. }
    assert (E' : all = (pre ++ [v]) ++ row) by (rewrite <- app_assoc; exact E).
    assert (L : S (length pre) = length (pre ++ [v])) by (rewrite app_length; cbn; lia).
    assert (Nv : nth_error all (length pre) = Some v) by (rewrite E, nth_error_app2, Nat.sub_diag by lia; reflexivity).
    assert (Hlow : forall x, no_nan x -> (rv neg_inf <= rv x)%R).
    { intros x Hx. pose proof (val_lt_max x) as B. apply Rabs_def2 in B. pose proof (bpow_gt_0 radix2 128).
      unfold rv, neg_inf. destruct x as [s|s|s pl e|s m e b]; try discriminate; cbn in *; try lra. destruct s; lra. }
    destruct (fgt v cur) eqn:F.
    + apply (fgt_rv v cur Hv Hc) in F. rewrite L. apply IH; [exact E'|exact Hv|]. destruct H as [H1 H2].
      assert (A : forall x, In x pre -> (rv x < rv v)%R).
      { intros x Hx. destruct H1 as [->|H1]; [destruct Hx|]. specialize (H1 x Hx). lra. }
      split.
      * right. intros x Hx. apply in_app_or in Hx as [Hx|[<-|[]]]; [specialize (A x Hx); lra|lra].
      * right. split; [exact Nv|]. split; [lia|]. intros j x Hj Hjx. apply A.
        rewrite E, nth_error_app1 in Hjx by exact Hj. now apply nth_error_In in Hjx.
    + assert (F' : ~ (rv cur < rv v)%R) by (intro G; apply (fgt_rv v cur Hv Hc) in G; congruence).
      rewrite L. apply IH; [exact E'|exact Hc|]. destruct H as [H1 H2]. split.
      * right. intros x Hx. apply in_app_or in Hx as [Hx|[<-|[]]]; [|exact F']. destruct H1 as [->|H1]; [destruct Hx|now apply H1].
      * destruct H2 as [(-> & -> & H2)|(H2 & H3 & H4)].
        -- left. split; [reflexivity|]. split; [reflexivity|]. intros x Hx. apply in_app_or in Hx as [Hx|[<-|[]]]; [now apply H2|].
           specialize (Hlow v Hv). lra.
        -- right. split; [exact H2|]. split; [lia|exact H4].
Qed.

Lemma max_index_spec row : row <> [] -> Forall no_nan row -> exists v, nth_error row (max_index row) = Some v /\
  (forall x, In x row -> (rv x <= rv v)%R) /\ forall j x, j < max_index row -> nth_error row j = Some x -> (rv x < rv v)%R.
Proof.
  intros Hr Hn. destruct (max_index_loop_spec row Hn [] row neg_inf 0 eq_refl eq_refl) as [H|H]; [|exact H|easy].
  split; [now left|]. left. split; [reflexivity|]. split; [reflexivity|]. intros x [].
Qed.

(** ** Nested loops *)
Definition flat3 {A} (t : list (list (list A))) : list A := concat (map (@concat A) t).

Lemma omapM_ext {A B} (f g : A -> outcome B) l : (forall x, In x l -> f x = g x) -> omapM f l = omapM g l.
Proof.
  induction l as [|x l IH]; intro H; [reflexivity|]. cbn [omapM]. rewrite (H x) by now left.
  rewrite IH by (intros y Hy; apply H; now right). reflexivity.
Qed.
Lemma omapM_app {A B} (f : A -> outcome B) l k : omapM f (l ++ k) = do a <- omapM f l; do b <- omapM f k; Ok (a ++ b).
Proof.
  induction l as [|x l IH]; cbn [app omapM obind]; [destruct (omapM f k); reflexivity|].
  rewrite IH. destruct (f x); cbn [obind]; try reflexivity. destruct (omapM f l); cbn [obind]; try reflexivity.
  destruct (omapM f k); reflexivity.
Qed.
Lemma omapM_map {A B C} (f : B -> outcome C) (h : A -> B) l : omapM f (map h l) = omapM (fun x => f (h x)) l.
Proof. induction l as [|x l IH]; [reflexivity|]. cbn [map omapM]. now rewrite IH. Qed.

(** Rows of [d] consecutive calls make up one long run. *)
Lemma omapM_blocks {B} (g : nat -> outcome B) d n : forall k,
  omap (@concat B) (omapM (fun i => omapM g (seq (i * d) d)) (seq k n)) = omapM g (seq (k * d) (n * d)).
Proof.
  induction n as [|n IH]; intro k; [reflexivity|]. cbn [seq omapM Nat.mul]. rewrite seq_app, omapM_app.
  replace (k * d + d) with (S k * d) by lia. rewrite <- IH. destruct (omapM g (seq (k * d) d)); cbn [obind]; try reflexivity.
  destruct (omapM _ (seq (S k) n)); reflexivity.
Qed.

Lemma omap_obind {A B C} (h : B -> C) (x : outcome A) f : omap h (obind x f) = obind x (fun a => omap h (f a)).
Proof. destruct x; reflexivity. Qed.
Lemma omapM_omap {A B C} (h : B -> C) (f : A -> outcome B) l : omapM (fun x => omap h (f x)) l = omap (map h) (omapM f l).
Proof.
  induction l as [|x l IH]; [reflexivity|]. cbn [omapM]. rewrite IH. destruct (f x); cbn [omap obind]; try reflexivity.
  destruct (omapM f l); reflexivity.
Qed.
Lemma omap_omap {A B C} (h : B -> C) (g : A -> B) x : omap h (omap g x) = omap (fun a => h (g a)) x.
Proof. destruct x; reflexivity. Qed.

Lemma omap_ext {A B} (f g : A -> B) x : (forall a, f a = g a) -> omap f x = omap g x.
Proof. intro H. destruct x; cbn; [now rewrite H|reflexivity|reflexivity]. Qed.

Lemma build3_flat {A} channels d1 d2 (f : nat -> nat -> nat -> outcome A) g :
  (forall ch i j, i < d1 -> j < d2 -> f ch i j = g ((ch * d1 + i) * d2 + j)) ->
  omap flat3 (build3 channels d1 d2 f) = omapM g (seq 0 (channels * d1 * d2)).
Proof.
  intro H. unfold build3.
  replace (omap flat3 (omapM (fun ch => omapM (fun i => omapM (fun j => f ch i j) (seq 0 d2)) (seq 0 d1)) (seq 0 channels)))
    with (omap (@concat A) (omapM (fun ch => omapM g (seq (ch * (d1 * d2)) (d1 * d2))) (seq 0 channels))).
  - rewrite omapM_blocks. f_equal. f_equal. lia.
  - transitivity (omap (@concat A) (omap (map (@concat A)) (omapM (fun ch => omapM (fun i => omapM (fun j => f ch i j) (seq 0 d2)) (seq 0 d1)) (seq 0 channels)))); [|now rewrite omap_omap].
    f_equal.
    rewrite <- omapM_omap. apply omapM_ext. intros ch _.
    replace (seq (ch * (d1 * d2)) (d1 * d2)) with (seq ((ch * d1) * d2) (d1 * d2)) by (f_equal; lia).
    rewrite <- omapM_blocks. f_equal.
    assert (E : seq (ch * d1) d1 = map (fun i => ch * d1 + i) (seq 0 d1)).
    { clear. generalize (ch * d1). intro k. assert (G : forall n a, seq (k + a) n = map (fun i => k + i) (seq a n)).
      { induction n as [|n IH]; intro a; [reflexivity|]. cbn [seq map]. f_equal. rewrite <- IH. f_equal. lia. }
      rewrite <- G. f_equal. lia. }
    rewrite E, omapM_map. apply omapM_ext. intros i Hi. apply in_seq in Hi.
    assert (E2 : seq ((ch * d1 + i) * d2) d2 = map (fun j => (ch * d1 + i) * d2 + j) (seq 0 d2)).
    { clear. generalize ((ch * d1 + i) * d2). intro k. assert (G : forall n a, seq (k + a) n = map (fun i => k + i) (seq a n)).
      { induction n as [|n IH]; intro a; [reflexivity|]. cbn [seq map]. f_equal. rewrite <- IH. f_equal. lia. }
      rewrite <- G. f_equal. lia. }
    rewrite E2, omapM_map. apply omapM_ext. intros j Hj. apply in_seq in Hj. symmetry. apply H; lia.
Qed.

Lemma flat3_map3 {A B} (h : A -> B) t : flat3 (map3 h t) = map h (flat3 t).
Proof.
  unfold flat3, map3. rewrite map_map. rewrite concat_map. f_equal. rewrite map_map. apply map_ext. intro c. now rewrite concat_map.
Qed.
