From Coq Require Import List Arith Bool ZArith Permutation Sorted Lia ZifyBool ZifyNat ZifyN.
From Verif Require Import Outcome Float32_Spec QuarterFloat_Model Bags_Model Bags_Spec.
Import ListNotations.
Local Open Scope Z_scope.

(** * Counting *)
Lemma populate_snoc : forall bias l x, populate bias (l ++ [x]) = populateBags bias (populate bias l) x.
Proof. intros. unfold populate. rewrite fold_left_app. reflexivity. Qed.
Lemma numbers_app : forall l k, numbers (l ++ k) = numbers l ++ numbers k.
Proof. intros. apply filter_app. Qed.
Lemma with_code_app : forall bias c l k, with_code bias c (l ++ k) = with_code bias c l ++ with_code bias c k.
Proof. intros. unfold with_code. rewrite numbers_app. apply filter_app. Qed.
Lemma not_finite_spec : forall f, not_finite f = negb (is_number f).
Proof. intros. unfold not_finite, is_number. rewrite negb_involutive. reflexivity. Qed.

Lemma populate_count : forall bias l c, snd (populate bias l c) = length (with_code bias c l).
Proof.
  intros bias l c. induction l as [|x l IH] using rev_ind; [reflexivity|].
  rewrite populate_snoc, with_code_app, app_length, <- IH. unfold populateBags. rewrite not_finite_spec.
  unfold with_code, numbers. cbn [filter]. destruct (is_number x); cbn [negb filter].
  - unfold addToBag. cbv zeta. fold (code bias x). destruct (populate bias l (code bias x)) as [o n] eqn:E.
    destruct (Z.eqb_spec c (code bias x)) as [Ec|Ec], (Z.eqb_spec (code bias x) c) as [Ed|Ed]; try congruence; cbn [snd length]; [subst c; rewrite E; cbn; lia|lia].
  - cbn. lia.
Qed.

Lemma merge_count : forall a b c, snd (merge a b c) = (snd (a c) + snd (b c))%nat.
Proof. intros. unfold merge. destruct (b c), (a c). cbn. lia. Qed.

Lemma merges_count : forall bias ls a c,
  snd (fold_left merge (map (populate bias) ls) a c) = (snd (a c) + length (with_code bias c (concat ls)))%nat.
Proof.
  intros bias ls. induction ls as [|l ls IH]; intros; cbn [map fold_left concat]; [cbn; lia|].
  rewrite IH, merge_count, populate_count, with_code_app, app_length. lia.
Qed.

Lemma Permutation_filter' : forall {A} (f : A -> bool) l k, Permutation l k -> Permutation (filter f l) (filter f k).
Proof.
  intros A f l k H. induction H; cbn; try (destruct (f x)); try (destruct (f y)); eauto using Permutation, perm_swap.
Qed.
Lemma with_code_perm : forall bias c l k, Permutation l k -> length (with_code bias c l) = length (with_code bias c k).
Proof. intros. apply Permutation_length. unfold with_code, numbers. now do 2 apply Permutation_filter'. Qed.

Lemma Permutation_concat : forall {A} (l k : list (list A)), Permutation l k -> Permutation (concat l) (concat k).
Proof.
  intros A l k H. induction H; cbn.
  - constructor.
  - now apply Permutation_app_head.
  - rewrite !app_assoc. apply Permutation_app_tail, Permutation_app_comm.
  - etransitivity; eassumption.
Qed.

Lemma flat_map_cons_perm : forall {A B} (f : A -> B) (g : A -> list B) l,
  Permutation (flat_map (fun c => f c :: g c) l) (map f l ++ flat_map g l).
Proof.
  intros A B f g l. induction l as [|a l IH]; cbn; [constructor|]. constructor.
  rewrite IH. rewrite !app_assoc. apply Permutation_app_tail, Permutation_app_comm.
Qed.
Lemma transpose_perm : forall {A B C} (f : A -> B -> C) R Cs,
  Permutation (flat_map (fun r => map (f r) Cs) R) (flat_map (fun c => map (fun r => f r c) R) Cs).
Proof.
  intros A B C f R Cs. induction R as [|r R IH]; cbn [flat_map map].
  - induction Cs; cbn; [constructor|assumption].
  - rewrite (flat_map_cons_perm (fun c => f r c) (fun c => map (fun r0 => f r0 c) R) Cs). now apply Permutation_app_head.
Qed.
Lemma concat_flat_map : forall {A B} (f : A -> list (list B)) l, concat (flat_map f l) = flat_map (fun a => concat (f a)) l.
Proof. intros. induction l; cbn; [reflexivity|]. now rewrite concat_app, IHl. Qed.
Lemma flat_map_perm : forall {A B} (f g : A -> list B) l, (forall a, Permutation (f a) (g a)) -> Permutation (flat_map f l) (flat_map g l).
Proof. intros. induction l; cbn; [constructor|]. now apply Permutation_app. Qed.
Lemma concat_map : forall {A B} (f : A -> list B) l, concat (map f l) = flat_map f l.
Proof. intros. symmetry. apply flat_map_concat_map. Qed.

Lemma parts_elements : forall t, Permutation (concat (parts t)) (elements t).
Proof.
  intros t. unfold parts, elements. destruct (rows t <=? cols t)%nat; rewrite concat_flat_map.
  - apply flat_map_perm. intros. rewrite concat_map. reflexivity.
  - apply flat_map_perm. intros. rewrite concat_map. symmetry. apply transpose_perm.
Qed.

Lemma fill_count : forall bias t threads c, Permutation threads (parts t) ->
  snd (fill bias t threads c) = length (with_code bias c (elements t)).
Proof.
  intros bias t threads c H. unfold fill. destruct (_ <? _).
  - apply populate_count.
  - rewrite merges_count. cbn [snd no_bags]. apply with_code_perm.
    rewrite (Permutation_concat _ _ H). apply parts_elements.
Qed.

(** * Values in the bags *)
Lemma populate_no_code : forall bias l c, with_code bias c l = [] -> fst (populate bias l c) = 0.
Proof.
  intros bias l c. induction l as [|x l IH] using rev_ind; [reflexivity|].
  rewrite with_code_app. intros H. apply app_eq_nil in H. destruct H as [H1 H2]. specialize (IH H1).
  rewrite populate_snoc. unfold populateBags. rewrite not_finite_spec. unfold with_code, numbers in H2. cbn in H2.
  destruct (is_number x); cbn [negb filter] in *; [|exact IH].
  unfold addToBag. cbv zeta. fold (code bias x). destruct (populate bias l (code bias x)).
  destruct (Z.eqb_spec (code bias x) c); [discriminate|].
  destruct (Z.eqb_spec c (code bias x)); [congruence|exact IH].
Qed.

Lemma merge_forgets : forall a b c, fst (b c) = 0 -> fst (merge a b c) = 0.
Proof. intros a b c H. unfold merge. destruct (b c) as [v n], (a c) as [o m]. cbn in H. subst v. reflexivity. Qed.

Lemma threads_forget_lemma : forall bias t threads l c,
  100000000 <= Z.of_nat (rows t) * Z.of_nat (cols t) -> with_code bias c l = [] ->
  fst (fill bias t (threads ++ [l]) c) = 0.
Proof.
  intros bias t threads l c Hb H. unfold fill. destruct (Z.ltb_spec (Z.of_nat (rows t) * Z.of_nat (cols t)) 100000000); [lia|].
  rewrite map_app, fold_left_app. cbn [map fold_left]. apply merge_forgets, populate_no_code, H.
Qed.

Lemma in_with_code : forall bias c l x, In x (with_code bias c l) <-> In x (numbers l) /\ code bias x = c.
Proof. intros. unfold with_code. rewrite filter_In, Z.eqb_eq. reflexivity. Qed.

Lemma signs_apart_app : forall bias l k, signs_apart bias (l ++ k) -> signs_apart bias l.
Proof.
  intros bias l k H x y Hx Hy. apply H; rewrite numbers_app; apply in_or_app; now left.
Qed.

Lemma populate_value : forall bias l, signs_apart bias l -> forall x, In x (numbers l) -> furthest bias l x (fst (populate bias l (code bias x))).
Proof.
  intros bias l. induction l as [|z l IH] using rev_ind; intros HS x Hx; [contradiction|].
  assert (HS' := signs_apart_app _ _ _ HS). specialize (IH HS').
  rewrite populate_snoc. unfold populateBags. rewrite not_finite_spec.
  rewrite numbers_app in Hx. destruct (is_number z) eqn:Ez; cbn [negb].
  2:{ assert (En : numbers [z] = []) by (cbn; now rewrite Ez). unfold furthest. rewrite numbers_app, En, app_nil_r in *.
      exact (IH x Hx). }
  assert (En : numbers [z] = [z]) by (cbn; now rewrite Ez). rewrite En in Hx.
  unfold furthest. rewrite numbers_app, En.
  unfold addToBag. cbv zeta. fold (code bias z). destruct (populate bias l (code bias z)) as [o n] eqn:Eo.
  destruct (Z.eqb_spec (code bias x) (code bias z)) as [Ec|Ec].
  - cbn [fst]. rewrite Ec.
    destruct (with_code bias (code bias z) l) as [|w ws] eqn:Ew.
    + assert (Ho : o = 0) by (pose proof (populate_no_code _ _ _ Ew) as P; rewrite Eo in P; exact P). subst o.
      assert (Hv : (if (0 <? f32_units z) && (0 <? f32_units z) || (f32_units z <? 0) && (f32_units z <? 0) || (f32_units z =? 0) then f32_units z else 0) = f32_units z)
        by (destruct (0 <? f32_units z) eqn:?, (f32_units z <? 0) eqn:?, (f32_units z =? 0) eqn:?; cbn; try reflexivity; lia).
      rewrite Hv. split.
      * exists z. split; [apply in_or_app; right; now left|now split].
      * intros y Hy Hc. apply in_app_or in Hy. destruct Hy as [Hy|[<-|[]]]; [|lia].
        assert (In y (with_code bias (code bias z) l)) as F by (apply in_with_code; now split). rewrite Ew in F. contradiction.
    + assert (Hw : In w (numbers l) /\ code bias w = code bias z) by (apply in_with_code; rewrite Ew; now left).
      destruct Hw as [Hw Hwc]. pose proof (IH w Hw) as F. rewrite Hwc, Eo in F. cbn [fst] in F.
      destruct F as [(y & Hy & Hyc & Hyv) F].
      assert (Hs : Z.sgn o = Z.sgn (f32_units z)).
      { rewrite <- Hyv. apply HS; try (rewrite numbers_app, En; apply in_or_app); [now left|right; now left|congruence]. }
      assert (Hcase : forall v, (v = f32_units z /\ Z.abs o <= Z.abs v \/ v = o /\ Z.abs (f32_units z) <= Z.abs v) ->
        (exists y0, In y0 (numbers l ++ [z]) /\ code bias y0 = code bias z /\ f32_units y0 = v) /\
        (forall y0, In y0 (numbers l ++ [z]) -> code bias y0 = code bias z -> Z.abs (f32_units y0) <= Z.abs v)).
      { intros v Hv. split.
        - destruct Hv as [[-> _]|[-> _]].
          + exists z. split; [apply in_or_app; right; now left|now split].
          + exists y. split; [apply in_or_app; now left|split; congruence].
        - intros y0 Hy0 Hc0. apply in_app_or in Hy0. destruct Hy0 as [Hy0|[<-|[]]].
          + specialize (F y0 Hy0). rewrite Hwc in F. specialize (F Hc0). destruct Hv as [[-> ?]|[-> ?]]; lia.
          + destruct Hv as [[-> ?]|[-> ?]]; lia. }
      apply Hcase. clear - Hs.
      destruct (0 <? f32_units z) eqn:?, (o <? f32_units z) eqn:?, (f32_units z <? 0) eqn:?, (f32_units z <? o) eqn:?, (f32_units z =? 0) eqn:?; cbn [andb orb]; lia.
  - apply in_app_or in Hx. destruct Hx as [Hx|[<-|[]]]; [|congruence].
    destruct (IH x Hx) as [(y & Hy & Hyc & Hyv) F]. split.
    + exists y. split; [apply in_or_app; now left|now split].
    + intros y0 Hy0 Hc0. apply in_app_or in Hy0. destruct Hy0 as [Hy0|[<-|[]]]; [now apply F|congruence].
Qed.

(** * The bags laid out in order *)
Definition expand (L : list (Z * nat)) : list Z := flat_map (fun x => repeat (fst x) (snd x)) L.
Definition rep (bias : Z) (l : list N) (x : N) : Z := fst (populate bias l (code bias x)).

Lemma code_range : forall bias x, 0 <= code bias x < 256.
Proof. intros. unfold code, floatToQuarter. cbv zeta. apply Z.mod_pos_bound. lia. Qed.
Lemma in_codes : forall c, 0 <= c < 256 -> In c codes.
Proof.
  intros c H. unfold codes. apply in_map_iff. exists (Z.to_nat c). split; [lia|]. apply in_seq. lia.
Qed.
Lemma NoDup_codes : NoDup codes.
Proof. unfold codes. apply FinFun.Injective_map_NoDup; [intros a b; lia|apply seq_NoDup]. Qed.

Lemma insert_perm : forall x l, Permutation (insert x l) (x :: l).
Proof.
  intros x l. induction l as [|y l IH]; cbn [insert]; [reflexivity|]. destruct (fst x <=? fst y); [reflexivity|].
  rewrite IH. apply perm_swap.
Qed.
Lemma sorts_perm : forall l, Permutation (fold_right insert [] l) l.
Proof. intros l. induction l as [|x l IH]; cbn; [constructor|]. rewrite insert_perm. now constructor. Qed.
Notation by_value := (fun a b : Z * nat => fst a <= fst b).
Lemma insert_sorted : forall x l, StronglySorted by_value l -> StronglySorted by_value (insert x l).
Proof.
  intros x l H. induction H as [|y l Hs IH Hf]; cbn [insert].
  - repeat constructor.
  - destruct (Z.leb_spec (fst x) (fst y)).
    + constructor; [now constructor|]. constructor; [assumption|]. eapply Forall_impl; [|exact Hf]. cbn. lia.
    + constructor; [exact IH|]. eapply Permutation_Forall; [symmetry; apply insert_perm|]. constructor; [lia|exact Hf].
Qed.
Lemma sorts_sorted : forall l, StronglySorted by_value (fold_right insert [] l).
Proof. intros l. induction l; cbn; [constructor|]. now apply insert_sorted. Qed.

Lemma expand_perm : forall L K, Permutation L K -> Permutation (expand L) (expand K).
Proof.
  intros L K H. unfold expand. rewrite !flat_map_concat_map. apply Permutation_concat. now apply Permutation_map.
Qed.
Lemma in_expand : forall L v, In v (expand L) -> exists n, In (v, n) L.
Proof.
  intros L v H. unfold expand in H. apply in_flat_map in H. destruct H as ([w n] & H & R). cbn in R. apply repeat_spec in R. subst. eauto.
Qed.
Lemma repeat_sorted : forall v n, StronglySorted Z.le (repeat v n).
Proof.
  intros. induction n; cbn; constructor; [assumption|]. apply Forall_forall. intros x H. apply repeat_spec in H. lia.
Qed.
Lemma StronglySorted_app : forall {A} (R : A -> A -> Prop) l k, StronglySorted R l -> StronglySorted R k ->
  (forall x y, In x l -> In y k -> R x y) -> StronglySorted R (l ++ k).
Proof.
  intros A R l k H Hk Hx. induction H as [|a l Hs IH Hf]; cbn; [assumption|]. constructor.
  - apply IH. intros. apply Hx; [now right|assumption].
  - apply Forall_app. split; [assumption|]. apply Forall_forall. intros y Hy. apply Hx; [now left|assumption].
Qed.
Lemma expand_sorted : forall L, StronglySorted by_value L -> StronglySorted Z.le (expand L).
Proof.
  intros L H. induction H as [|x L Hs IH Hf]; cbn; [constructor|]. apply StronglySorted_app; [apply repeat_sorted|exact IH|].
  intros a b Ha Hb. apply repeat_spec in Ha. subst a. apply in_expand in Hb. destruct Hb as [n Hb].
  rewrite Forall_forall in Hf. exact (Hf _ Hb).
Qed.
Lemma sorted_unique : forall l k, StronglySorted Z.le l -> StronglySorted Z.le k -> Permutation l k -> l = k.
Proof.
  intros l. induction l as [|a l IH]; intros k Hl Hk P.
  - apply Permutation_nil in P. now subst.
  - destruct k as [|b k]; [symmetry in P; apply Permutation_nil in P; discriminate|].
    inversion Hl as [|? ? Hl' Fl]; subst. inversion Hk as [|? ? Hk' Fk]; subst. rewrite Forall_forall in Fl, Fk.
    assert (a = b).
    { assert (Ia : In a (b :: k)) by (eapply Permutation_in; [exact P|now left]).
      assert (Ib : In b (a :: l)) by (eapply Permutation_in; [symmetry; exact P|now left]).
      destruct Ia as [|Ia]; [congruence|]. destruct Ib as [|Ib]; [congruence|]. specialize (Fl _ Ib). specialize (Fk _ Ia). lia. }
    subst b. f_equal. apply IH; [assumption..|]. eapply Permutation_cons_inv; exact P.
Qed.

Lemma filter_nonempty_expand : forall L, expand (filter (fun x => (0 <? snd x)%nat) L) = expand L.
Proof.
  intros L. induction L as [|x L IH]; [reflexivity|]. cbn [filter]. unfold expand in *.
  destruct (Nat.ltb_spec 0 (snd x)); cbn [flat_map]; rewrite IH; [reflexivity|].
  replace (snd x) with O by lia. reflexivity.
Qed.

Lemma classes_perm : forall {A} (f : A -> Z) (xs : list A) cs, NoDup cs -> (forall x, In x xs -> In (f x) cs) ->
  Permutation (flat_map (fun c => filter (fun x => f x =? c) xs) cs) xs.
Proof.
  intros A f xs cs ND. induction xs as [|x xs IH]; intros H.
  - clear. induction cs; cbn; [constructor|assumption].
  - destruct (in_split (f x) cs) as (a & b & E); [apply H; now left|].
    assert (IH' : Permutation (flat_map (fun c => filter (fun x0 => f x0 =? c) xs) cs) xs) by (apply IH; intros; apply H; now right).
    subst cs. rewrite flat_map_app in *. cbn [flat_map] in *.
    assert (Hout : forall d, ~ In (f x) d -> flat_map (fun c => filter (fun x0 => f x0 =? c) (x :: xs)) d = flat_map (fun c => filter (fun x0 => f x0 =? c) xs) d).
    { intros d Hd. induction d as [|e d IHd]; cbn [flat_map]; [reflexivity|]. rewrite IHd by (intros F; apply Hd; now right). f_equal.
      cbn [filter]. destruct (Z.eqb_spec (f x) e); [|reflexivity]. exfalso. apply Hd. now left. }
    apply NoDup_remove_2 in ND. rewrite in_app_iff in ND.
    rewrite !Hout by tauto. cbn [filter]. rewrite Z.eqb_refl. cbn [app]. rewrite <- Permutation_middle. constructor. exact IH'.
Qed.

Lemma repeat_map_const : forall {A B} (v : B) (w : list A) f, (forall x, In x w -> f x = v) -> repeat v (length w) = map f w.
Proof.
  intros A B v w f H. induction w as [|x w IH]; cbn; [reflexivity|]. rewrite (H x) by now left. f_equal. apply IH. intros. apply H. now right.
Qed.
Lemma flat_map_map : forall {A B C} (f : A -> B) (g : B -> list C) l, flat_map g (map f l) = flat_map (fun a => g (f a)) l.
Proof. intros. induction l; cbn; [reflexivity|]. now rewrite IHl. Qed.
Lemma map_flat_map : forall {A B C} (f : B -> C) (g : A -> list B) l, map f (flat_map g l) = flat_map (fun a => map f (g a)) l.
Proof. intros. induction l; cbn; [reflexivity|]. now rewrite map_app, IHl. Qed.

Lemma build_expand : forall bias l, Permutation (expand (buildBagFromCounts (populate bias l))) (map (rep bias l) (numbers l)).
Proof.
  intros bias l. unfold buildBagFromCounts. rewrite (expand_perm _ _ (sorts_perm _)), filter_nonempty_expand.
  unfold expand. rewrite flat_map_map.
  etransitivity; [|apply Permutation_map, (classes_perm (code bias) (numbers l) codes); [apply NoDup_codes|intros; apply in_codes, code_range]].
  rewrite map_flat_map. apply flat_map_perm. intros c. rewrite populate_count.
  rewrite (repeat_map_const _ _ (rep bias l)); [reflexivity|]. intros x Hx. apply in_with_code in Hx. destruct Hx as [_ <-]. reflexivity.
Qed.
Lemma build_sorted : forall b, StronglySorted by_value (buildBagFromCounts b).
Proof. intros. apply sorts_sorted. Qed.
Lemma build_perm : forall b, Permutation (buildBagFromCounts b) (filter (fun x => (0 <? snd x)%nat) (map b codes)).
Proof. intros. unfold buildBagFromCounts. generalize codes. intros. apply sorts_perm. Qed.
Lemma build_positive : forall b x, In x (buildBagFromCounts b) -> (0 < snd x)%nat.
Proof.
  intros b x H. pose proof (Permutation_in _ (build_perm b) H) as H'. apply filter_In in H'.
  destruct H' as [_ H']. now apply Nat.ltb_lt in H'.
Qed.

Lemma count_fold : forall (b : bags) cs n, fold_left (fun n c => n + snd (b c))%nat cs n = (n + length (expand (map b cs)))%nat.
Proof.
  intros b cs. induction cs as [|c cs IH]; intros; cbn [fold_left]; [cbn; lia|].
  rewrite IH. unfold expand. cbn [map flat_map]. rewrite app_length, repeat_length. lia.
Qed.
Lemma elementCount_build : forall b, elementCount b = length (expand (buildBagFromCounts b)).
Proof.
  intros b. unfold elementCount. rewrite count_fold. cbn [Nat.add]. unfold buildBagFromCounts.
  rewrite (Permutation_length (expand_perm _ _ (sorts_perm _))), filter_nonempty_expand. reflexivity.
Qed.
Lemma elementCount_populate : forall bias l, elementCount (populate bias l) = length (numbers l).
Proof. intros. rewrite elementCount_build, (Permutation_length (build_expand bias l)), map_length. reflexivity. Qed.

(** * Quarters *)
Lemma nth_repeat_mid : forall (P : list Z) v c r i, (length P <= i < length P + c)%nat -> nth i (P ++ repeat v c ++ r) 0 = v.
Proof.
  intros P v c r i H. rewrite app_nth2 by lia. rewrite app_nth1 by (rewrite repeat_length; lia).
  apply (repeat_spec c v). apply nth_In. rewrite repeat_length. lia.
Qed.

Section Quarters.
Context (s : list Z) (q : nat).
Let T (j : nat) : Z := nth (j * q - 1) s 0.

Lemma quarters_of_spec : forall fuel k P cur v,
  (4 - k <= fuel)%nat -> (1 <= k <= 3)%nat -> (forall i, (P <= i < cur)%nat -> nth i s 0 = v) -> (1 <= cur)%nat -> (P <= k * q - 1)%nat ->
  exists k', fst (quarters_of fuel v cur q (k * q) (map T (seq 0 k))) = map T (seq 0 k') /\ (k <= k' <= 4)%nat /\
    (k' = 4 \/ snd (quarters_of fuel v cur q (k * q) (map T (seq 0 k))) = k' * q /\ cur <= k' * q - 1)%nat.
Proof.
  induction fuel as [|fuel IH]; intros k P cur v Hf Hk Hv Hc HP; [lia|].
  cbn [quarters_of]. destruct (Nat.leb_spec (k * q) cur) as [Hle|Hlt].
  - assert (Ev : map T (seq 0 k) ++ [v] = map T (seq 0 (S k))).
    { rewrite seq_S, map_app. cbn [map plus]. f_equal. f_equal. unfold T. symmetry. apply Hv. clear IH. lia. }
    rewrite Ev. rewrite map_length, seq_length. destruct (Nat.eqb_spec (S k) 4) as [E4|N4].
    + exists (S k). cbn [fst snd]. split; [reflexivity|]. split; [lia|left; exact E4].
    + replace (k * q + q)%nat with (S k * q)%nat by (clear; lia).
      destruct (IH (S k) P cur v) as (k' & E & Hk' & Hn); [lia|lia|exact Hv|exact Hc|clear - HP; cbn; lia|].
      exists k'. split; [exact E|]. split; [lia|exact Hn].
  - exists k. cbn [fst snd]. split; [reflexivity|]. split; [lia|]. right. split; [reflexivity|lia].
Qed.


Lemma quarters_loop_spec : forall L k P, s = P ++ expand L -> (forall x, In x L -> (0 < snd x)%nat) -> (1 <= k <= 3)%nat ->
  (length P <= k * q - 1)%nat -> (1 <= length s)%nat -> (4 * q <= length s)%nat ->
  quarters_loop q (k * q) (length P) (map T (seq 0 k)) L = map T (seq 0 4).
Proof.
  induction L as [|[v c] L IH]; intros k P E Hp Hk HP H1 H4.
  - cbn in E. rewrite app_nil_r in E. subst P. exfalso. assert (k * q <= 3 * q)%nat by (apply Nat.mul_le_mono_r; lia). lia.
  - cbn [quarters_loop]. unfold expand in E. cbn [flat_map fst snd] in E. fold (expand L) in E.
    assert (Hc : (0 < c)%nat) by (apply (Hp (v, c)); now left).
    destruct (quarters_of_spec 3 k (length P) (length P + c) v) as (k' & E1 & Hk' & Hn); [lia|lia| |lia|exact HP|].
    { intros i Hi. rewrite E. now apply nth_repeat_mid. }
    destruct (quarters_of 3 v (length P + c) q (k * q) (map T (seq 0 k))) as [qv nq]. cbn [fst snd] in E1, Hn. subst qv.
    rewrite map_length, seq_length. destruct (Nat.eqb_spec k' 4) as [->|N4]; [reflexivity|].
    destruct Hn as [Hn|[-> Hn]]; [congruence|].
    replace (length P + c)%nat with (length (P ++ repeat v c)) in * by (rewrite app_length, repeat_length; reflexivity).
    apply IH; [rewrite E, app_assoc; reflexivity|intros; apply Hp; now right|lia|exact Hn|exact H1|exact H4].
Qed.
End Quarters.

Lemma expand_head : forall L x, (0 < snd x)%nat -> nth 0 (expand (x :: L)) 0 = fst x.
Proof. intros L [v n] H. cbn [snd] in H. destruct n; [lia|reflexivity]. Qed.
Lemma expand_app : forall L K, expand (L ++ K) = expand L ++ expand K.
Proof. intros. unfold expand. apply flat_map_app. Qed.
Lemma expand_last : forall L x, (forall y, In y (x :: L) -> (0 < snd y)%nat) -> nth (length (expand (x :: L)) - 1) (expand (x :: L)) 0 = fst (last (x :: L) x).
Proof.
  intros L x H. destruct (exists_last (l := x :: L)) as (K & [v n] & E); [discriminate|]. rewrite E in *. rewrite last_last.
  assert (Hn : (0 < n)%nat) by (apply (H (v, n)); apply in_or_app; right; now left).
  assert (E1 : expand [(v, n)] = repeat v n) by (unfold expand; cbn [flat_map fst snd]; apply app_nil_r).
  rewrite expand_app, E1, app_length, repeat_length. rewrite <- (app_nil_r (repeat v n)). cbn [fst]. apply nth_repeat_mid. lia.
Qed.

Lemma calculateQuarters_spec : forall L, L <> [] -> (forall x, In x L -> (0 < snd x)%nat) ->
  let s := expand L in let n := length s in
  calculateQuarters n L = Ok [nth 0 s 0; nth (n / 4 - 1) s 0; nth (2 * (n / 4) - 1) s 0; nth (3 * (n / 4) - 1) s 0; nth (n - 1) s 0].
Proof.
  intros L HL Hp s n. destruct L as [|x L]; [congruence|]. unfold calculateQuarters. fold s.
  rewrite <- (expand_last L x Hp). fold s. fold n.
  assert (Hx : (0 < snd x)%nat) by (apply Hp; now left).
  rewrite <- (expand_head L x Hx). fold s.
  assert (Hn : (1 <= n)%nat). { subst n s. unfold expand. cbn [flat_map]. rewrite app_length, repeat_length. lia. }
  assert (H4 : (4 * (n / 4) <= n)%nat) by (apply Nat.mul_div_le; lia).
  pose proof (quarters_loop_spec s (n / 4) (x :: L) 1 [] eq_refl Hp ltac:(lia) ltac:(cbn; lia) Hn H4) as Q.
  set (q := (n / 4)%nat) in *. clearbody q. replace (1 * q)%nat with q in Q by lia. cbn [length map seq] in Q. cbn [Nat.mul Nat.sub] in Q.
  rewrite Q. cbn [app]. do 3 f_equal. rewrite Nat.add_0_r. reflexivity.
Qed.

(** * Ten to ninety percent *)
Lemma sorted_nth : forall s, StronglySorted Z.le s -> forall i j, (i <= j < length s)%nat -> nth i s 0 <= nth j s 0.
Proof.
  intros s H. induction H as [|a s Hs IH Hf]; intros i j Hij; [cbn in Hij; lia|].
  destruct j; [replace i with O by lia; lia|]. cbn [length] in Hij. destruct i; cbn [nth].
  - rewrite Forall_forall in Hf. apply Hf, nth_In. lia.
  - apply IH. lia.
Qed.

Section Eighty.
Context (s : list Z) (t : nat) (last_value : Z).
Hypothesis sorted_s : StronglySorted Z.le s.
Hypothesis last_is : last_value = nth (length s - 1) s 0.
Hypothesis some : (10 * t <= length s)%nat.
Hypothesis nonempty : (1 <= length s)%nat.
Let fin (e : list Z) : list Z := e ++ repeat last_value (5 - length e).

Lemma value_in_range : forall P v c L i, s = P ++ repeat v c ++ L -> (0 < c)%nat -> (i < length P + c)%nat -> nth i s 0 <= v.
Proof.
  intros P v c L i E Hc Hi.
  assert (Ev : nth (length P + c - 1) s 0 = v) by (rewrite E; apply nth_repeat_mid; lia).
  rewrite <- Ev. apply sorted_nth; [exact sorted_s|]. rewrite E, !app_length, repeat_length. lia.
Qed.
Lemma value_at_most_last : forall P v c L, s = P ++ repeat v c ++ L -> (0 < c)%nat -> v <= last_value.
Proof.
  intros P v c L E Hc.
  assert (Ev : nth (length P) s 0 = v) by (rewrite E; apply nth_repeat_mid; lia).
  rewrite <- Ev, last_is. apply sorted_nth; [exact sorted_s|]. rewrite E, !app_length, repeat_length. lia.
Qed.
Lemma any_at_most_last : forall i, (i < length s)%nat -> nth i s 0 <= last_value.
Proof. intros i Hi. rewrite last_is. apply sorted_nth; [exact sorted_s|lia]. Qed.

Lemma stage3 : forall L P e lo, s = P ++ expand L -> (forall x, In x L -> (0 < snd x)%nat) -> length e = 3%nat ->
  (forall x, In x L -> lo <= fst x) -> lo <= last_value ->
  exists x, fin (eighty_loop t (5 * t) (9 * t) (length P) e L) = e ++ [x; last_value] /\ nth (9 * t - 1) s 0 <= x <= last_value /\ lo <= x.
Proof.
  induction L as [|[v c] L IH]; intros P e lo E Hp He Hlo Hl.
  - cbn [eighty_loop]. exists last_value. unfold fin. rewrite He. split; [reflexivity|]. split; [|exact Hl]. split; [apply any_at_most_last; lia|lia].
  - cbn [eighty_loop]. unfold expand in E. cbn [flat_map fst snd] in E. fold (expand L) in E.
    assert (Hc : (0 < c)%nat) by (apply (Hp (v, c)); now left). rewrite He. cbn [Nat.eqb andb].
    destruct (Nat.leb_spec (9 * t) (length P + c)) as [Hle|Hlt].
    + exists v. unfold fin. rewrite app_length, He. cbn [length plus Nat.sub repeat]. rewrite <- app_assoc. split; [reflexivity|].
      split; [|apply (Hlo (v, c)); now left]. split; [eapply value_in_range; [exact E|exact Hc|lia]|eapply value_at_most_last; [exact E|exact Hc]].
    + rewrite ?He. cbn [Nat.eqb andb].
      replace (length P + c)%nat with (length (P ++ repeat v c)) by (rewrite app_length, repeat_length; reflexivity).
      apply IH; [rewrite E, app_assoc; reflexivity|intros; apply Hp; now right|exact He|intros; apply Hlo; now right|exact Hl].
Qed.

Lemma rest_above : forall P v c L, s = P ++ repeat v c ++ expand L -> (0 < c)%nat -> (forall x, In x L -> (0 < snd x)%nat) -> forall x, In x L -> v <= fst x.
Proof.
  intros P v c L E Hc Hp [w d] Hx. apply in_split in Hx as Hx'. destruct Hx' as (A & B & ->). cbn [fst].
  assert (Hd : (0 < d)%nat) by (apply (Hp (w, d)); apply in_or_app; right; now left).
  assert (E' : s = (P ++ repeat v c ++ expand A) ++ repeat w d ++ expand B).
  { rewrite E, expand_app. unfold expand at 2. cbn [flat_map fst snd]. fold (expand B). rewrite <- !app_assoc. reflexivity. }
  assert (Ev : nth (length P) s 0 = v) by (rewrite E; apply nth_repeat_mid; lia).
  rewrite <- Ev. eapply value_in_range; [exact E'|exact Hd|]. rewrite !app_length, repeat_length. lia.
Qed.

Lemma stage2 : forall L P e, s = P ++ expand L -> (forall x, In x L -> (0 < snd x)%nat) -> length e = 2%nat ->
  exists x y, fin (eighty_loop t (5 * t) (9 * t) (length P) e L) = e ++ [x; y; last_value] /\
    nth (5 * t - 1) s 0 <= x /\ x <= y <= last_value /\ nth (9 * t - 1) s 0 <= y.
Proof.
  induction L as [|[v c] L IH]; intros P e E Hp He.
  - cbn [eighty_loop]. exists last_value, last_value. unfold fin. rewrite He. split; [reflexivity|].
    split; [apply any_at_most_last; lia|]. split; [lia|apply any_at_most_last; lia].
  - cbn [eighty_loop]. unfold expand in E. cbn [flat_map fst snd] in E. fold (expand L) in E.
    assert (Hc : (0 < c)%nat) by (apply (Hp (v, c)); now left). rewrite He. cbn [Nat.eqb andb].
    assert (E' : s = (P ++ repeat v c) ++ expand L) by (rewrite E, app_assoc; reflexivity).
    assert (Hp' : forall x, In x L -> (0 < snd x)%nat) by (intros; apply Hp; now right).
    replace (length P + c)%nat with (length (P ++ repeat v c)) by (rewrite app_length, repeat_length; reflexivity).
    destruct (Nat.leb_spec (5 * t) (length (P ++ repeat v c))) as [Hle|Hlt].
    + assert (El : length (e ++ [v]) = 3%nat) by (rewrite app_length, He; reflexivity). rewrite ?El. cbn [length plus Nat.eqb andb].
      destruct (stage3 L (P ++ repeat v c) (e ++ [v]) v E' Hp') as (y & Ey & Hy & Hvy).
      * rewrite app_length, He. reflexivity.
      * eapply rest_above; [exact E|exact Hc|exact Hp'].
      * eapply value_at_most_last; [exact E|exact Hc].
      * exists v, y. rewrite Ey, <- app_assoc. split; [reflexivity|]. rewrite app_length, repeat_length in Hle.
        split; [eapply value_in_range; [exact E|exact Hc|lia]|]. lia.
    + rewrite ?He. cbn [Nat.eqb andb]. apply IH; [exact E'|exact Hp'|exact He].
Qed.

Lemma stage1 : forall L P e, s = P ++ expand L -> (forall x, In x L -> (0 < snd x)%nat) -> length e = 1%nat -> (length P <= t)%nat ->
  exists x y, fin (eighty_loop t (5 * t) (9 * t) (length P) e L) = e ++ [nth t s 0; x; y; last_value] /\
    nth (5 * t - 1) s 0 <= x /\ x <= y <= last_value /\ nth (9 * t - 1) s 0 <= y.
Proof.
  induction L as [|[v c] L IH]; intros P e E Hp He HP.
  - cbn in E. rewrite app_nil_r in E. subst P. lia.
  - cbn [eighty_loop]. unfold expand in E. cbn [flat_map fst snd] in E. fold (expand L) in E.
    assert (Hc : (0 < c)%nat) by (apply (Hp (v, c)); now left). rewrite ?He. cbn [Nat.eqb andb]. rewrite ?He. cbn [Nat.eqb andb].
    assert (E' : s = (P ++ repeat v c) ++ expand L) by (rewrite E, app_assoc; reflexivity).
    assert (Hp' : forall x, In x L -> (0 < snd x)%nat) by (intros; apply Hp; now right).
    destruct (Nat.ltb_spec t (length P + c)) as [Hlt|Hle].
    + replace (length P + c)%nat with (length (P ++ repeat v c)) by (rewrite app_length, repeat_length; reflexivity).
      destruct (stage2 L (P ++ repeat v c) (e ++ [v]) E' Hp') as (x & y & Ey & H).
      * rewrite app_length, He. reflexivity.
      * exists x, y. split; [|exact H]. rewrite Ey, <- app_assoc. cbn [app]. do 2 f_equal. symmetry.
        rewrite E. apply nth_repeat_mid. lia.
    + replace (length P + c)%nat with (length (P ++ repeat v c)) by (rewrite app_length, repeat_length; reflexivity).
      apply IH; [exact E'|exact Hp'|exact He|]. rewrite app_length, repeat_length. exact Hle.
Qed.
End Eighty.

Lemma calculateEighty_spec : forall L, L <> [] -> (forall x, In x L -> (0 < snd x)%nat) -> StronglySorted by_value L ->
  let s := expand L in let n := length s in
  exists x y, calculateEightyPercent n L = Ok [nth 0 s 0; nth (n / 10) s 0; x; y; nth (n - 1) s 0] /\
    nth (5 * (n / 10) - 1) s 0 <= x /\ x <= y <= nth (n - 1) s 0 /\ nth (9 * (n / 10) - 1) s 0 <= y.
Proof.
  intros L HL Hp Hs s n. destruct L as [|z L]; [congruence|]. unfold calculateEightyPercent. fold s.
  assert (Hx : (0 < snd z)%nat) by (apply Hp; now left).
  assert (Hn : (1 <= n)%nat). { subst n s. unfold expand. cbn [flat_map]. rewrite app_length, repeat_length. lia. }
  assert (H10 : (10 * (n / 10) <= n)%nat) by (apply Nat.mul_div_le; lia).
  assert (M5 : Nat.min (n / 2) (5 * (n / 10)) = (5 * (n / 10))%nat).
  { apply Nat.min_r. apply Nat.div_le_lower_bound; lia. }
  assert (M9 : Nat.min (9 * n / 10) (9 * (n / 10)) = (9 * (n / 10))%nat).
  { apply Nat.min_r. apply Nat.div_le_lower_bound; lia. }
  cbv zeta. rewrite M5, M9.
  destruct (stage1 s (n / 10) (nth (n - 1) s 0) (expand_sorted _ Hs) eq_refl H10 Hn (z :: L) [] [fst z] eq_refl Hp eq_refl ltac:(cbn; lia)) as (x & y & E & H).
  cbn [length] in E. rewrite <- (expand_last L z Hp). fold s. fold n.
  exists x, y. split; [|exact H]. rewrite E. cbn [app]. rewrite <- (expand_head L z Hx). reflexivity.
Qed.

(** * What [bag] sets *)
Lemma bag_populate : forall bias l, numbers l <> [] -> exists s x y,
  StronglySorted Z.le s /\ Permutation (map (rep bias l) (numbers l)) s /\
  bag (length (numbers l)) (populate bias l) = Ok
    {| quarterValues := let n := length s in [nth 0 s 0; nth (n / 4 - 1) s 0; nth (2 * (n / 4) - 1) s 0; nth (3 * (n / 4) - 1) s 0; nth (n - 1) s 0];
       eightyValues := let n := length s in [nth 0 s 0; nth (n / 10) s 0; x; y; nth (n - 1) s 0] |} /\
  (let n := length s in nth (5 * (n / 10) - 1) s 0 <= x /\ x <= y <= nth (n - 1) s 0 /\ nth (9 * (n / 10) - 1) s 0 <= y).
Proof.
  intros bias l H. set (L := buildBagFromCounts (populate bias l)).
  assert (Hp : forall x, In x L -> (0 < snd x)%nat) by (intros; eapply build_positive; eassumption).
  assert (Hs : StronglySorted by_value L) by apply build_sorted.
  assert (P : Permutation (expand L) (map (rep bias l) (numbers l))) by apply build_expand.
  assert (HL : L <> []). { intros E. rewrite E in P. cbn in P. apply Permutation_nil in P. apply map_eq_nil in P. contradiction. }
  assert (En : length (expand L) = length (numbers l)) by (rewrite (Permutation_length P); apply map_length).
  destruct (calculateEighty_spec L HL Hp Hs) as (x & y & E8 & H8). pose proof (calculateQuarters_spec L HL Hp) as E4.
  cbv zeta in E8, H8, E4. exists (expand L), x, y. split; [now apply expand_sorted|]. split; [now symmetry|].
  split; [|exact H8]. unfold bag. fold L. cbv zeta. rewrite <- En, E4. cbn [obind]. rewrite E8. reflexivity.
Qed.

Lemma rounded_rep : forall bias l, signs_apart bias l -> Forall2 (furthest bias l) (numbers l) (map (rep bias l) (numbers l)).
Proof.
  intros bias l H. assert (G : forall k, incl k (numbers l) -> Forall2 (furthest bias l) k (map (rep bias l) k)).
  { induction k as [|a k IH]; intros I; cbn [map]; constructor; [apply populate_value; [exact H|apply I; now left]|apply IH; intros x Hx; apply I; now right]. }
  apply G. apply incl_refl.
Qed.

Lemma furthest_unique : forall bias l x v w, signs_apart bias l -> In x (numbers l) -> furthest bias l x v -> furthest bias l x w -> v = w.
Proof.
  intros bias l x v w S0 Hx [(y & Hy & Cy & <-) Fv] [(z & Hz & Cz & <-) Fw].
  pose proof (Fv z Hz Cz). pose proof (Fw y Hy Cy). pose proof (S0 y z Hy Hz ltac:(congruence)). lia.
Qed.
Lemma rounded_unique : forall bias l s s', signs_apart bias l -> rounded_and_sorted bias l s -> rounded_and_sorted bias l s' -> s = s'.
Proof.
  intros bias l s s' H (r & F & P & S1) (r' & F' & P' & S2).
  assert (r = r').
  { assert (G : forall k r r', incl k (numbers l) -> Forall2 (furthest bias l) k r -> Forall2 (furthest bias l) k r' -> r = r').
    { induction k as [|a k IH]; intros u w I A B; inversion A; subst; inversion B; subst; [reflexivity|].
      f_equal; [eapply furthest_unique; [exact H|apply I; now left|eassumption|eassumption]|].
      apply IH; [intros x Hx; apply I; now right|assumption..]. }
    eapply G; [apply incl_refl|eassumption..]. }
  subst r'. apply sorted_unique; [apply Sorted_StronglySorted; [intros a b c; lia|assumption]..|]. now rewrite <- P.
Qed.

(** * The recommended bias and offset *)
Lemma in_nth_sorted : forall s v, StronglySorted Z.le s -> In v s -> nth 0 s 0 <= v <= nth (length s - 1) s 0.
Proof.
  intros s v H Hv. apply (In_nth _ _ 0) in Hv. destruct Hv as (i & Hi & <-). split; apply sorted_nth; try assumption; lia.
Qed.

Lemma lowest_unique : forall l m m', lowest l m -> lowest l m' -> m = m'.
Proof.
  intros l m m' ([->|(x & Hx & <-)] & A & B) ([->|(y & Hy & <-)] & C & D); try (specialize (B y Hy)); try (specialize (D x Hx)); lia.
Qed.
Lemma highest_unique : forall l m m', highest l m -> highest l m' -> m = m'.
Proof.
  intros l m m' ([->|(x & Hx & <-)] & A & B) ([->|(y & Hy & <-)] & C & D); try (specialize (B y Hy)); try (specialize (D x Hx)); lia.
Qed.

Lemma bag_100 : forall bias l, numbers l <> [] -> signs_apart bias l ->
  exists v m M x, bag (length (numbers l)) (populate bias l) = Ok v /\ lowest l m /\ highest l M /\
    range For_100 true v = Ok (M - m) /\ at_index (eightyValues v) 0 = Ok x /\ Z.min 0 x = m.
Proof.
  intros bias l Hn HS. destruct (bag_populate bias l Hn) as (s & x & y & Ss & P & E & _). cbv zeta in E.
  set (lo := nth 0 s 0) in *. set (hi := nth (length s - 1) s 0) in *.
  assert (Hl : length s = length (numbers l)) by (rewrite <- (Permutation_length P); apply map_length).
  assert (Hls : (0 < length s)%nat) by (rewrite Hl; destruct (numbers l); [congruence|cbn; lia]).
  assert (Hin : forall z, In z (numbers l) -> lo <= rep bias l z <= hi).
  { intros z Hz. apply in_nth_sorted; [exact Ss|]. eapply Permutation_in; [exact P|]. now apply in_map. }
  assert (Hfrom : forall i, (i < length s)%nat -> exists z, In z (numbers l) /\ f32_units z = nth i s 0).
  { intros i Hi. assert (I : In (nth i s 0) (map (rep bias l) (numbers l))) by (eapply Permutation_in; [symmetry; exact P|now apply nth_In]).
    apply in_map_iff in I. destruct I as (z & Ez & Hz). destruct (populate_value bias l HS z Hz) as [(w & Hw & _ & Ew) _].
    exists w. split; [exact Hw|]. rewrite Ew. exact Ez. }
  assert (Hb : forall z, In z (numbers l) -> Z.min 0 lo <= f32_units z <= Z.max 0 hi).
  { intros z Hz. specialize (Hin z Hz). destruct (populate_value bias l HS z Hz) as [(w & Hw & Cw & Ew) F].
    specialize (F z Hz eq_refl). pose proof (HS w z Hw Hz Cw) as G. unfold rep in Hin. lia. }
  exists {| quarterValues := [lo; nth (length s / 4 - 1) s 0; nth (2 * (length s / 4) - 1) s 0; nth (3 * (length s / 4) - 1) s 0; hi];
            eightyValues := [lo; nth (length s / 10) s 0; x; y; hi] |}, (Z.min 0 lo), (Z.max 0 hi), lo.
  split; [exact E|]. split; [|split; [|split; [|split; reflexivity]]].
  - split; [|split; [lia|intros z Hz; specialize (Hb z Hz); lia]].
    destruct (Z.min_spec 0 lo) as [[_ ->]|[_ ->]]; [now left|right]. apply (Hfrom O). lia.
  - split; [|split; [lia|intros z Hz; specialize (Hb z Hz); lia]].
    destruct (Z.max_spec 0 hi) as [[_ ->]|[_ ->]]; [right|now left]. apply (Hfrom (length s - 1)%nat). lia.
  - cbn [range range_of quarterValues length Nat.eqb at_index nth_error obind]. f_equal. lia.
Qed.

Lemma value_from : forall bias l c, fst (populate bias l c) = 0 \/ exists x, In x (numbers l) /\ fst (populate bias l c) = f32_units x.
Proof.
  intros bias l c. induction l as [|z l IH] using rev_ind; [now left|].
  assert (I : fst (populate bias l c) = 0 \/ exists x, In x (numbers (l ++ [z])) /\ fst (populate bias l c) = f32_units x).
  { destruct IH as [|(x & Hx & E)]; [now left|right; exists x; split; [rewrite numbers_app; apply in_or_app; now left|exact E]]. }
  rewrite populate_snoc. unfold populateBags. rewrite not_finite_spec. destruct (is_number z) eqn:Ez; cbn [negb]; [|exact I].
  unfold addToBag. cbv zeta. fold (code bias z). destruct (populate bias l (code bias z)) as [o n] eqn:Eo.
  destruct (Z.eqb_spec c (code bias z)) as [->|]; [|exact I]. rewrite Eo in I. cbn [fst] in *.
  destruct (_ || _); [|exact I]. right. exists z. split; [|reflexivity]. rewrite numbers_app. apply in_or_app. right. cbn. rewrite Ez. now left.
Qed.

Lemma fold_min_bound : forall (b : bags) K cs m, K <= m -> (forall c, K <= fst (b c)) -> K <= fold_left (fun m c => Z.min m (fst (b c))) cs m.
Proof. intros b K cs. induction cs as [|c cs IH]; intros m Hm H; cbn [fold_left]; [exact Hm|]. apply IH; [|exact H]. specialize (H c). lia. Qed.
Lemma fold_max_bound : forall (b : bags) K cs m, m <= K -> (forall c, fst (b c) <= K) -> fold_left (fun m c => Z.max m (fst (b c))) cs m <= K.
Proof. intros b K cs. induction cs as [|c cs IH]; intros m Hm H; cbn [fold_left]; [exact Hm|]. apply IH; [|exact H]. specialize (H c). lia. Qed.

Lemma min_max_bound : forall l K, 0 <= K -> (forall x, In x (numbers l) -> Z.abs (f32_units x) <= K) ->
  - K <= minValue (populate 14 l) /\ maxValue (populate 14 l) <= K.
Proof.
  intros l K HK H. assert (G : forall c, Z.abs (fst (populate 14 l c)) <= K).
  { intros c. destruct (value_from 14 l c) as [->|(x & Hx & ->)]; [lia|now apply H]. }
  unfold minValue, maxValue. split; [apply fold_min_bound|apply fold_max_bound]; try (intros c; specialize (G c)); try (specialize (G 0)); lia.
Qed.

Definition biases : list Z := [14; 8; 4; 1; -4].
Lemma widths : forall b, In b biases -> quarter_units QUARTER_MAX b = half_width b /\ quarter_units QUARTER_MIN b = - half_width b /\ calculateBiasRange b = 2 * half_width b.
Proof. intros b [<-|[<-|[<-|[<-|[<-|[]]]]]]; vm_compute; repeat split. Qed.
Lemma half_width_pos : forall b, b <= 160 -> 0 < half_width b.
Proof. intros. unfold half_width. assert (0 < 2 ^ (160 - b)) by (apply Z.pow_pos_nonneg; lia). lia. Qed.

Lemma wide_bias_range : forall l b, In b biases -> (b <> -4 -> forall x, In x (numbers l) -> Z.abs (f32_units x) <= half_width b) ->
  In (wide_bias (fun bias => populate bias l)) biases /\ b <= wide_bias (fun bias => populate bias l).
Proof.
  intros l b Hb H. unfold wide_bias. unfold biases in *.
  assert (S0 : b <> -4 -> spans (fun bias => populate bias l) b = true).
  { intros N4. specialize (H N4). destruct (widths b Hb) as (E1 & E2 & _). unfold spans. rewrite E1, E2.
    pose proof (half_width_pos b ltac:(cbn in Hb; lia)). destruct (min_max_bound l (half_width b) ltac:(lia) H). lia. }
  set (sp := spans (fun bias => populate bias l)) in *. clearbody sp. clear H. split.
  - destruct (sp 14), (sp 8), (sp 4), (sp 1); cbn; auto 10.
  - destruct (Z.eq_dec b (-4)) as [->|N4].
    + destruct (sp 14), (sp 8), (sp 4), (sp 1); lia.
    + specialize (S0 N4). destruct Hb as [<-|[<-|[<-|[<-|[<-|[]]]]]]; try rewrite S0; destruct (sp 14), (sp 8), (sp 4), (sp 1); try discriminate; lia.
Qed.

Lemma stats_100_lemma : forall t threads b, let l := elements t in
  Z.of_nat (rows t) * Z.of_nat (cols t) < 100000000 -> numbers l <> [] -> In b biases ->
  (b <> -4 -> forall x, In x (numbers l) -> Z.abs (f32_units x) <= half_width b) ->
  (forall b', In b' biases -> b <= b' -> signs_apart b' l) ->
  exists m M rb, lowest l m /\ highest l M /\ TensorStats t For_100 true threads = Ok (rb, m + M) /\ In rb biases /\
    (rb = -4 \/ M - m <= 2 * half_width rb) /\ (forall b', In b' biases -> rb < b' -> 2 * half_width b' < M - m).
Proof.
  intros t threads b l Hsmall Hn Hb Hfit HS. unfold TensorStats, recommend. cbv zeta.
  assert (Ef : forall bias, fill bias t threads = populate bias l).
  { intros. unfold fill. destruct (Z.ltb_spec (Z.of_nat (rows t) * Z.of_nat (cols t)) 100000000); [reflexivity|lia]. }
  assert (Ew : wide_bias (fun bias => fill bias t threads) = wide_bias (fun bias => populate bias l)).
  { unfold wide_bias, spans. rewrite !Ef. reflexivity. }
  rewrite Ew, !Ef, elementCount_populate. destruct (wide_bias_range l b Hb Hfit) as [Hw Hbw].
  set (w := wide_bias (fun bias => populate bias l)) in *. clearbody w.
  destruct (bag_100 w l Hn (HS w Hw Hbw)) as (v & m & M & x & E & Hm & HM & Er & _ & _).
  rewrite E. cbn [obind]. rewrite Er. cbn [obind]. clear E Er v x.
  exists m, M.
  assert (HW : b <> -4 -> M - m <= 2 * half_width b).
  { intros N4. pose proof (half_width_pos b ltac:(cbn in Hb; lia)). specialize (Hfit N4).
    destruct Hm as ([->|(y & Hy & <-)] & _ & _), HM as ([->|(z & Hz & <-)] & _ & _); try (specialize (Hfit y Hy) as Fy); try (specialize (Hfit z Hz) as Fz); lia. }
  assert (Hcheck : forall b', In b' biases -> b <= b' ->
    bagAndCheckRangeForBiasGoal For_100 true (fun bias => fill bias t threads) b' (M - m) = Ok (M - m <=? 2 * half_width b')).
  { intros b' Hb' Hle. unfold bagAndCheckRangeForBiasGoal. rewrite !Ef, elementCount_populate. destruct (widths b' Hb') as (_ & _ & ->).
    destruct (Z.ltb_spec (2 * half_width b') (M - m)) as [Hlt|Hge].
    - f_equal. symmetry. apply Z.leb_gt. exact Hlt.
    - destruct (bag_100 b' l Hn (HS b' Hb' Hle)) as (v & m' & M' & x & E & Hm' & HM' & Er & _ & _).
      rewrite (lowest_unique _ _ _ Hm' Hm), (highest_unique _ _ _ HM' HM) in Er. rewrite E. cbn [obind]. rewrite Er. reflexivity. }
  assert (Hfirst : exists rb, first_bias For_100 true (fun bias => fill bias t threads) [14; 8; 4; 1] (M - m) = Ok rb /\ In rb biases /\ b <= rb /\
    (rb = -4 \/ M - m <= 2 * half_width rb) /\ (forall b', In b' biases -> rb < b' -> 2 * half_width b' < M - m)).
  { assert (Hstep : forall b0 rest, In b0 biases -> b <= b0 -> first_bias For_100 true (fun bias => fill bias t threads) (b0 :: rest) (M - m) =
      if M - m <=? 2 * half_width b0 then Ok b0 else first_bias For_100 true (fun bias => fill bias t threads) rest (M - m)).
    { intros b0 rest H0 Hle. cbn [first_bias]. rewrite Hcheck by assumption. reflexivity. }
    clear Hcheck Ef Ew.
    rewrite Hstep by (unfold biases in *; cbn in *; lia).
    destruct (Z.leb_spec (M - m) (2 * half_width 14)) as [L14|G14].
    { exists 14. split; [reflexivity|]. split; [now left|]. split; [unfold biases in Hb; cbn in Hb; lia|]. split; [now right|].
      intros b' Hb' Hlt. unfold biases in Hb'; cbn in Hb'. lia. }
    assert (b <> 14) by (intros ->; specialize (HW ltac:(lia)); lia).
    rewrite Hstep by (unfold biases in *; cbn in *; lia).
    destruct (Z.leb_spec (M - m) (2 * half_width 8)) as [L8|G8].
    { exists 8. split; [reflexivity|]. split; [right; now left|]. split; [unfold biases in Hb; cbn in Hb; lia|]. split; [now right|].
      intros b' [<-|[<-|[<-|[<-|[<-|[]]]]]] Hlt; first [exact G14 | lia]. }
    assert (b <> 8) by (intros ->; specialize (HW ltac:(lia)); lia).
    rewrite Hstep by (unfold biases in *; cbn in *; lia).
    destruct (Z.leb_spec (M - m) (2 * half_width 4)) as [L4|G4].
    { exists 4. split; [reflexivity|]. split; [do 2 right; now left|]. split; [unfold biases in Hb; cbn in Hb; lia|]. split; [now right|].
      intros b' [<-|[<-|[<-|[<-|[<-|[]]]]]] Hlt; first [exact G14 | exact G8 | lia]. }
    assert (b <> 4) by (intros ->; specialize (HW ltac:(lia)); lia).
    rewrite Hstep by (unfold biases in *; cbn in *; lia).
    destruct (Z.leb_spec (M - m) (2 * half_width 1)) as [L1|G1].
    { exists 1. split; [reflexivity|]. split; [do 3 right; now left|]. split; [unfold biases in Hb; cbn in Hb; lia|]. split; [now right|].
      intros b' [<-|[<-|[<-|[<-|[<-|[]]]]]] Hlt; first [exact G14 | exact G8 | exact G4 | lia]. }
    assert (b <> 1) by (intros ->; specialize (HW ltac:(lia)); lia).
    exists (-4). split; [reflexivity|]. split; [do 4 right; now left|]. split; [unfold biases in Hb; cbn in Hb; lia|]. split; [now left|].
    intros b' [<-|[<-|[<-|[<-|[<-|[]]]]]] Hlt; first [exact G14 | exact G8 | exact G4 | exact G1 | lia]. }
  destruct Hfirst as (rb & E & Hrb & Hle & Hr). exists rb. rewrite E. cbn [obind]. rewrite Ef.
  destruct (bag_100 rb l Hn (HS rb Hrb Hle)) as (v & m' & M' & x & Ev & Hm' & _ & _ & Ex & Emin).
  rewrite Ev. cbn [obind]. rewrite Ex. cbn [obind]. rewrite Emin, (lowest_unique _ _ _ Hm' Hm).
  split; [exact Hm|]. split; [exact HM|]. split; [do 2 f_equal; lia|]. split; [exact Hrb|exact Hr].
Qed.

(** * No numbers at all *)
Lemma build_nothing : forall b, (forall c, snd (b c) = O) -> buildBagFromCounts b = [].
Proof.
  intros b H. unfold buildBagFromCounts. generalize codes. intros cs.
  replace (filter (fun x => (0 <? snd x)%nat) (map b cs)) with (@nil (Z * nat)); [reflexivity|].
  induction cs as [|c cs IH]; cbn [map filter]; [reflexivity|]. rewrite H. cbn [Nat.ltb Nat.leb]. exact IH.
Qed.
Lemma stats_none_lemma : forall t f r threads, Permutation threads (parts t) -> numbers (elements t) = [] -> TensorStats t f r threads = UB.
Proof.
  intros t f r threads P H. unfold TensorStats, recommend. cbv zeta.
  assert (E : forall bias, buildBagFromCounts (fill bias t threads) = []).
  { intros bias. apply build_nothing. intros c. rewrite fill_count by exact P. unfold with_code. rewrite H. reflexivity. }
  unfold bag. rewrite E. reflexivity.
Qed.

(** * Threads in another order *)
Lemma constant_part : forall bias l v c, is_number v = true -> 0 < f32_units v -> l <> [] -> (forall x, In x l -> x = v) ->
  fst (populate bias l c) = if c =? code bias v then f32_units v else 0.
Proof.
  intros bias l v c Hv Hpos Hl Hall.
  assert (Hn : forall x, In x (numbers l) -> x = v) by (intros x Hx; apply filter_In in Hx; apply Hall; tauto).
  destruct (Z.eqb_spec c (code bias v)) as [->|Hc].
  - assert (Iv : In v (numbers l)). { destruct l as [|a l]; [congruence|]. rewrite (Hall a) by now left. cbn. rewrite Hv. now left. }
    assert (SA : signs_apart bias l) by (intros x y Hx Hy _; rewrite (Hn x Hx), (Hn y Hy); reflexivity).
    destruct (populate_value bias l SA v Iv) as [(y & Hy & _ & Ey) _]. rewrite <- Ey, (Hn y Hy). reflexivity.
  - apply populate_no_code. destruct (with_code bias c l) as [|x xs] eqn:E; [reflexivity|].
    assert (In x (with_code bias c l)) as I by (rewrite E; now left). apply in_with_code in I. destruct I as [I <-]. rewrite (Hn x I) in Hc. congruence.
Qed.
Lemma max_ext : forall b b' : bags, (forall c, fst (b c) = fst (b' c)) -> maxValue b = maxValue b'.
Proof.
  intros b b' H. unfold maxValue. rewrite (H 0). generalize (fst (b' 0)). generalize codes. intros cs. induction cs as [|c cs IH]; intros m; cbn [fold_left]; [reflexivity|].
  rewrite H. apply IH.
Qed.
