(** Proofs about byte pair training: the loop, the table it leaves. *)
From Coq Require Import Ascii String List Bool Arith NArith ZArith Lia Permutation Sorted ZifyBool ZifyNat ZifyN.
From Verif Require Import Outcome Chars Replace_Model Replace_Spec Replace_Proofs PortableBytes_Model Bpe_Model Bpe_Spec Bpe_Proofs.
Import ListNotations.
Open Scope N_scope.
Ltac Zify.zify_post_hook ::= Z.div_mod_to_equations.

Fixpoint assign_all (t : list code_pair) (c : N) (ps : list (N * N)) : list code_pair :=
  match ps with
  | [] => t
  | p :: r => assign_all (assign t [fst p; snd p] [c]) (c + 1) r
  end.

Definition long (e : str16 * N) : bool := Nat.ltb 1 (length (fst e)).
Definition npairs (v : vocab) : nat := length (filter long v).
Definition pk (e : (N * N) * N) : str16 := [fst (fst e); snd (fst e)].

Lemma npairs_perm v v' : Permutation v v' -> npairs v = npairs v'.
Proof.
  unfold npairs. intro H. apply Permutation_length. induction H; cbn [filter].
  - constructor.
  - destruct (long x); auto.
  - destruct (long x), (long y); auto. apply perm_swap.
  - eapply perm_trans; eauto.
Qed.

Lemma npairs_others x y n next v : In ([x; y], n) v ->
  (npairs (others [x; y] v ++ [([next], n)]) < npairs v)%nat.
Proof.
  intro H. unfold npairs. rewrite filter_app. change (filter long [([next], n)]) with (@nil (str16 * N)). rewrite app_nil_r.
  assert (Hle : forall v : vocab, (length (filter long (others [x; y] v)) <= length (filter long v))%nat).
  { clear. induction v as [|e v IH]; [auto|]. cbn [others filter]. fold (others [x; y] v).
    destruct (key_eqb (fst e) [x; y]); cbn [negb filter]; destruct (long e); cbn [length]; lia. }
  induction v as [|e v IH]; [destruct H|]. cbn [others filter]. fold (others [x; y] v).
  destruct H as [->|H].
  - cbn [fst]. rewrite key_eqb_refl. cbn [negb]. change (long ([x; y], n)) with true. cbn [length]. specialize (Hle v). lia.
  - specialize (IH H). destruct (key_eqb (fst e) [x; y]); cbn [negb filter];
      destruct (long e); cbn [length]; lia.
Qed.

Section Loop.
Context (order : nat -> vocab -> vocab) (stop : nat -> bool).
Context (Horder : any_order order).

Lemma loop_spec m k fuel : forall mc next table v,
  (npairs v < fuel)%nat -> next < 65535 -> vok next v ->
  exists l : list ((N * N) * N),
    train_loop order stop fuel m k mc next table v =
      (assign_all table next (map fst l), next + N.of_nat (length l)) /\
    NoDup (map fst l) /\
    (forall e, In e l -> In (pk e, snd e) v /\ m <= snd e /\ 0 < snd e) /\
    StronglySorted (fun a b => snd b <= snd a) l /\
    (forall x y n e, In ([x; y], n) v -> ~ In (x, y) (map fst l) -> In e l -> n <= snd e) /\
    (next + N.of_nat (length l) <= 0x7FFE \/ (length l <= 1)%nat) /\
    (Z.of_nat mc + Z.of_nat (length l) <= Z.max (Z.of_nat mc + 1) (k mod 2 ^ 64) \/ l = [])%Z /\
    (mc <> 0%nat -> (Z.of_nat mc + Z.of_nat (length l) <= Z.max (Z.of_nat mc) (k mod 2 ^ 64))%Z) /\
    ((forall i, stop i = false) -> (Z.of_nat mc <= Z.of_N next /\ 0x7FFE <= k mod 2 ^ 64)%Z ->
       0x7FFE <= next + N.of_nat (length l) \/
       forall x y n, In ([x; y], n) v -> ~ In (x, y) (map fst l) -> n < m).
Proof.
  induction fuel as [|fuel IH]; intros mc next table v Hf Hnext Hv; [lia|].
  assert (Hnone : forall P : Prop, (P -> train_loop order stop (S fuel) m k mc next table v = (table, next)) -> P ->
     ((forall i, stop i = false) -> (Z.of_nat mc <= Z.of_N next /\ 0x7FFE <= k mod 2 ^ 64)%Z ->
        0x7FFE <= next \/ forall x y n, In ([x; y], n) v -> n < m) ->
     exists l : list ((N * N) * N),
    train_loop order stop (S fuel) m k mc next table v =
      (assign_all table next (map fst l), next + N.of_nat (length l)) /\
    NoDup (map fst l) /\
    (forall e, In e l -> In (pk e, snd e) v /\ m <= snd e /\ 0 < snd e) /\
    StronglySorted (fun a b => snd b <= snd a) l /\
    (forall x y n e, In ([x; y], n) v -> ~ In (x, y) (map fst l) -> In e l -> n <= snd e) /\
    (next + N.of_nat (length l) <= 0x7FFE \/ (length l <= 1)%nat) /\
    (Z.of_nat mc + Z.of_nat (length l) <= Z.max (Z.of_nat mc + 1) (k mod 2 ^ 64) \/ l = [])%Z /\
    (mc <> 0%nat -> (Z.of_nat mc + Z.of_nat (length l) <= Z.max (Z.of_nat mc) (k mod 2 ^ 64))%Z) /\
    ((forall i, stop i = false) -> (Z.of_nat mc <= Z.of_N next /\ 0x7FFE <= k mod 2 ^ 64)%Z ->
       0x7FFE <= next + N.of_nat (length l) \/
       forall x y n, In ([x; y], n) v -> ~ In (x, y) (map fst l) -> n < m)).
  { intros P HP p Hst. exists []. cbn [map length assign_all]. rewrite (HP p). rewrite N.add_0_r.
    split; [reflexivity|]. split; [constructor|]. split; [intros ? []|]. split; [constructor|].
    split; [intros ? ? ? ? ? ? []|]. split; [right; lia|]. split; [now right|]. split; [lia|].
    intros Hs Hk. destruct (Hst Hs Hk) as [Q|Q]; [left; exact Q|].
    right. intros x y n Hi _. eauto. }
  cbn [train_loop] in *.
  destruct ((match v with [] => false | _ => true end)
       && (Nat.ltb mc 1 || (Z.of_nat mc <? k mod 2 ^ 64)%Z)) eqn:G.
  2:{ apply (Hnone True); auto. intros Hs Hk.
      destruct v as [|e0 v0]; [right; intros ? ? ? []|]. left. cbn [andb] in G. lia. }
  set (vo := order mc v) in *.
  assert (Pv : Permutation vo v) by apply Horder.
  assert (Hvo : vok next vo) by (eapply vok_perm; [apply Permutation_sym; exact Pv|exact Hv]).
  pose proof (fmf_spec vo m) as F. cbv zeta in F.
  destruct F as [[E F]|(F1 & F2 & F3 & F4 & F5)].
  { apply (Hnone True); auto.
    - intros _. rewrite E. reflexivity.
    - intros Hs Hk. right. intros x y n Hin. assert (Hin' : In ([x; y], n) vo) by (eapply Permutation_in; [apply Permutation_sym; exact Pv|exact Hin]).
      specialize (F _ Hin'). cbn [fst snd length] in F. destruct Hvo as [_ Hp _]. rewrite Forall_forall in Hp. specialize (Hp _ Hin').
      cbn [snd] in Hp. lia. }
  set (mf := findMostFrequentPair vo m) in *.
  destruct (N.eqb_spec (snd mf) 0) as [|_]; [lia|].
  destruct (stop mc) eqn:Est.
  { apply (Hnone True); auto. intros Hs. congruence. }
  pose proof Hvo as Hvo2. destruct Hvo2 as [Hnd Hpos Hsh].
  assert (Hmf : exists x y n, mf = ([x; y], n)).
  { rewrite Forall_forall in Hsh. destruct (Hsh mf F1) as [(x & y & E)|(c & E & _)].
    - exists x, y, (snd mf). rewrite <- E. now destruct mf.
    - rewrite E in F2. cbn in F2. lia. }
  destruct Hmf as (x & y & n & Emf). clearbody mf. subst mf. cbn [fst snd] in *.
  rewrite (round_exact next) by auto.
  set (v' := others [x; y] vo ++ [([next], n)]).
  assert (Hv' : vok (next + 1) v') by (now apply vok_others).
  assert (Hnp : (npairs v' < npairs v)%nat).
  { rewrite <- (npairs_perm _ _ Pv). now apply npairs_others. }
  assert (Hin_v' : forall a b c, In ([a; b], c) v' <-> In ([a; b], c) vo /\ (a, b) <> (x, y)).
  { intros a b c. unfold v'. rewrite in_app_iff. cbn [In]. unfold others. rewrite filter_In. cbn [fst]. split.
    - intros [[H1 H2]|[H|[]]]; [|discriminate]. split; [exact H1|]. intro Q. injection Q as -> ->.
      rewrite key_eqb_refl in H2. discriminate.
    - intros [H1 H2]. left. split; [exact H1|]. destruct (key_eqb_spec [a; b] [x; y]) as [Q|]; [|reflexivity].
      exfalso. apply H2. injection Q as -> ->. reflexivity. }
  assert (Hin_vo : forall e, In e v <-> In e vo).
  { intro e. split; apply Permutation_in; [now apply Permutation_sym|exact Pv]. }
  assert (Huniq : forall c, In ([x; y], c) vo -> c = n).
  { intros c Hc. clear - Hnd Hc F1. induction vo as [|e vo IH]; [destruct Hc|].
    cbn [keys map] in Hnd. inversion Hnd as [|? ? Hni Hnd']; subst. destruct Hc as [Hc|Hc], F1 as [F1|F1].
    - congruence.
    - exfalso. apply Hni. subst e. cbn [fst]. change [x; y] with (fst ([x; y], n)). now apply in_map.
    - exfalso. apply Hni. subst e. cbn [fst]. change [x; y] with (fst ([x; y], c)). now apply in_map.
    - auto. }
  assert (Hw : (next + 1) mod 65536 = next + 1) by (apply N.mod_small; lia). rewrite Hw.
  assert (Hstep : forall l, NoDup (map fst l) -> 
       (forall e, In e l -> In (pk e, snd e) v' /\ m <= snd e /\ 0 < snd e) ->
       StronglySorted (fun a b : (N * N) * N => snd b <= snd a) l ->
       (forall x y n e, In ([x; y], n) v' -> ~ In (x, y) (map fst l) -> In e l -> n <= snd e) ->
       let l2 := ((x, y), n) :: l in
       NoDup (map fst l2) /\
       (forall e, In e l2 -> In (pk e, snd e) v /\ m <= snd e /\ 0 < snd e) /\
       StronglySorted (fun a b => snd b <= snd a) l2 /\
       (forall x y n e, In ([x; y], n) v -> ~ In (x, y) (map fst l2) -> In e l2 -> n <= snd e)).
  { intros l L1 L2 L3 L4. cbv zeta. cbn [map fst]. split; [|split; [|split]].
    - constructor; [|exact L1]. intro Hin. apply in_map_iff in Hin as ([[a b] c] & Q & He). cbn [fst] in Q.
      injection Q as -> ->. apply L2 in He as [He _]. unfold pk in He. cbn [fst snd] in He.
      apply Hin_v' in He. now destruct He.
    - intros e [<-|He].
      + unfold pk. cbn [fst snd]. rewrite Hin_vo. auto.
      + apply L2 in He as (He & ? & ?). split; [|auto]. unfold pk in *. apply Hin_v' in He as [He _]. now rewrite Hin_vo.
    - constructor; [exact L3|]. rewrite Forall_forall. intros e He. cbn [snd].
      apply L2 in He as (He & _). unfold pk in He. apply Hin_v' in He as [He _].
      specialize (F5 _ He). cbn [fst snd length] in F5. apply F5. lia.
    - intros a b c e Ha Hb [<-|He].
      + cbn [snd]. apply Hin_vo in Ha. specialize (F5 _ Ha). cbn [fst snd length] in F5. apply F5. lia.
      + apply (L4 a b c e); [|intro; apply Hb; now right|exact He].
        apply Hin_v'. rewrite <- Hin_vo. split; [exact Ha|]. intro Q. apply Hb. left. now symmetry. }
  destruct (N.leb_spec 0x7FFE (next + 1)) as [Hlim|Hlim].
  - destruct (Hstep [] (NoDup_nil _)) as (S1 & S2 & S3 & S4).
    { intros ? []. } { constructor. } { intros ? ? ? ? ? ? []. }
    exists [((x, y), n)]. split; [reflexivity|]. split; [exact S1|]. split; [exact S2|]. split; [exact S3|]. split; [exact S4|].
    cbn [length]. split; [right; lia|]. split; [left; lia|]. split; [lia|]. intros _ _. left. lia.
  - destruct (IH (S mc) (next + 1) (assign table [x; y] [next]) v') as (l & L0 & L1 & L2 & L3 & L4 & L5 & L6 & L7 & L8).
    { lia. } { lia. } { exact Hv'. }
    destruct (Hstep l L1 L2 L3 L4) as (S1 & S2 & S3 & S4).
    exists (((x, y), n) :: l). split; [|split; [exact S1|split; [exact S2|split; [exact S3|split; [exact S4|]]]]].
    + rewrite L0. cbn [map assign_all fst snd length]. f_equal. lia.
    + cbn [length]. split; [destruct L5; [left; lia|]; destruct l as [|? [|]]; cbn [length] in *; left; lia|].
      split; [left; lia|]. split; [lia|]. intros Hs Hk. destruct (L8 Hs) as [Q|Q]; [lia|left; lia|].
      right. intros a b c Ha Hb. apply (Q a b c); [|intro; apply Hb; now right].
      apply Hin_v'. rewrite <- Hin_vo. split; [exact Ha|]. intro Q'. apply Hb. left. now symmetry.
Qed.
End Loop.

Lemma loop_fuel order stop m k : any_order order -> forall f1 f2 mc next table v,
  (npairs v < f1)%nat -> (npairs v < f2)%nat -> next < 65535 -> vok next v ->
  train_loop order stop f1 m k mc next table v = train_loop order stop f2 m k mc next table v.
Proof.
  intro Horder. induction f1 as [|f1 IH]; intros f2 mc next table v H1 H2 Hn Hv; [lia|].
  destruct f2 as [|f2]; [lia|]. cbn [train_loop].
  destruct ((match v with [] => false | _ => true end) && _); [|reflexivity].
  set (vo := order mc v) in *.
  assert (Pv : Permutation vo v) by apply Horder.
  assert (Hvo : vok next vo) by (eapply vok_perm; [apply Permutation_sym; exact Pv|exact Hv]).
  pose proof (fmf_spec vo m) as F. cbv zeta in F.
  destruct F as [[E F]|(F1 & F2 & F3 & F4 & F5)]; [rewrite E; reflexivity|].
  set (mf := findMostFrequentPair vo m) in *.
  destruct (snd mf =? 0); [reflexivity|]. destruct (stop mc); [reflexivity|].
  pose proof Hvo as [Hnd Hpos Hsh].
  assert (Hmf : exists x y n, mf = ([x; y], n)).
  { rewrite Forall_forall in Hsh. destruct (Hsh mf F1) as [(x & y & E)|(c & E & _)].
    - exists x, y, (snd mf). rewrite <- E. now destruct mf.
    - rewrite E in F2. cbn in F2. lia. }
  destruct Hmf as (x & y & n & Emf). clearbody mf. subst mf. cbn [fst snd] in *.
  rewrite (round_exact next) by auto.
  assert (Hw : (next + 1) mod 65536 = next + 1) by (apply N.mod_small; lia). rewrite Hw.
  destruct (N.leb_spec 0x7FFE (next + 1)); [reflexivity|].
  pose proof (npairs_others x y n next vo F1) as Hnp. rewrite (npairs_perm _ _ Pv) in Hnp.
  apply IH; [lia|lia|lia|now apply vok_others].
Qed.

Lemma npairs_le v : (npairs v <= length v)%nat.
Proof. unfold npairs. induction v as [|e v IH]; cbn [filter length]; [lia|]. destruct (long e); cbn [length]; lia. Qed.

(** ** the table *)
Record tok (d hi : N) (t : list code_pair) : Prop := {
  tok_keys : NoDup (map fst t);
  tok_codes : NoDup (map snd t);
  tok_shape : Forall (fun e => exists x y c, e = ([x; y], [c]) /\ d < c < hi) t }.

Lemma existsb_tkey (t : list code_pair) k : existsb (fun e => key_eqb (fst e) k) t = true <-> In k (map fst t).
Proof.
  rewrite existsb_exists, in_map_iff. split.
  - intros (e & H & E). exists e. destruct (key_eqb_spec (fst e) k); [auto|discriminate].
  - intros (e & <- & H). exists e. split; [exact H|]. apply key_eqb_refl.
Qed.

Lemma assign_new t k c : ~ In k (map fst t) -> assign t k c = t ++ [(k, c)].
Proof.
  intro H. unfold assign. destruct (existsb _ t) eqn:E; [|reflexivity]. apply existsb_tkey in E. contradiction.
Qed.

Lemma tok_mono d hi hi' t : tok d hi t -> hi <= hi' -> tok d hi' t.
Proof.
  intros [H1 H2 H3] H. split; auto. eapply Forall_impl; [|exact H3].
  intros e (x & y & c & E & L). exists x, y, c. split; [exact E|lia].
Qed.

Lemma assign_in t k c e : In e (assign t k c) -> In e t \/ e = (k, c).
Proof.
  unfold assign. destruct (existsb _ t).
  - rewrite in_map_iff. intros (e' & E & H). destruct (key_eqb (fst e') k); subst; auto.
  - rewrite in_app_iff. cbn. intuition congruence.
Qed.

Lemma tok_assign d hi t x y : tok d hi t -> d < hi -> tok d (hi + 1) (assign t [x; y] [hi]).
Proof.
  intros [H1 H2 H3] Hd.
  assert (Hno : ~ In [hi] (map snd t)).
  { intro Hin. apply in_map_iff in Hin as (e & E & He). rewrite Forall_forall in H3.
    destruct (H3 e He) as (a & b & c & -> & L). cbn in E. injection E as ->. lia. }
  split.
  - unfold assign. destruct (existsb _ t) eqn:X.
    + rewrite map_map. erewrite map_ext; [exact H1|]. intro e. cbn.
      destruct (key_eqb_spec (fst e) [x; y]); cbn; congruence.
    + rewrite map_app. cbn. apply (Permutation_NoDup (l := [x; y] :: map fst t)); [apply Permutation_cons_append|].
      constructor; [|exact H1]. intro Hin. apply existsb_tkey in Hin. congruence.
  - unfold assign. destruct (existsb _ t) eqn:X.
    + clear X H3. induction t as [|e t IH]; [constructor|]. cbn [map] in *.
      inversion H1 as [|? ? Ha Hb]; inversion H2 as [|? ? Hc Hd']; subst.
      assert (Hno' : ~ In [hi] (map snd t)) by (intro; apply Hno; now right).
      destruct (key_eqb_spec (fst e) [x; y]) as [Q|Q]; cbn [snd].
      * constructor.
        -- rewrite map_map. intro Hin. apply in_map_iff in Hin as (e' & E & He'). revert E.
           destruct (key_eqb_spec (fst e') [x; y]) as [Q'|Q']; intro E.
           ++ apply Ha. rewrite Q, <- Q'. now apply in_map.
           ++ apply Hno'. rewrite <- E. now apply in_map.
        -- auto.
      * constructor; [|auto]. rewrite map_map. intro Hin. apply in_map_iff in Hin as (e' & E & He'). revert E.
        destruct (key_eqb_spec (fst e') [x; y]) as [Q'|Q']; cbn [snd]; intro E.
        -- apply Hno. left. auto.
        -- apply Hc. rewrite <- E. now apply in_map.
    + rewrite map_app. cbn. apply (Permutation_NoDup (l := [hi] :: map snd t)); [apply Permutation_cons_append|].
      constructor; assumption.
  - rewrite Forall_forall. intros e He. apply assign_in in He as [He| ->].
    + rewrite Forall_forall in H3. destruct (H3 e He) as (a & b & c & E & L). exists a, b, c. split; [exact E|lia].
    + exists x, y, hi. split; [reflexivity|lia].
Qed.

Lemma tok_assign_all d ps : forall t hi, tok d hi t -> d < hi ->
  tok d (hi + N.of_nat (length ps)) (assign_all t hi ps).
Proof.
  induction ps as [|p ps IH]; intros t hi H Hd; cbn [assign_all length].
  - now rewrite N.add_0_r.
  - replace (hi + N.of_nat (S (length ps))) with ((hi + 1) + N.of_nat (length ps)) by lia.
    apply IH; [now apply tok_assign|lia].
Qed.

Lemma assign_all_in ps : forall t hi e, In e (assign_all t hi ps) ->
  In e t \/ exists p i, (i < length ps)%nat /\ nth_error ps i = Some p /\ e = ([fst p; snd p], [hi + N.of_nat i]).
Proof.
  induction ps as [|p ps IH]; intros t hi e H; [now left|]. cbn [assign_all] in H.
  apply IH in H as [H|(q & i & Hi & Hq & ->)].
  - apply assign_in in H as [H| ->]; [now left|]. right. exists p, 0%nat. cbn. split; [lia|]. split; [reflexivity|].
    now rewrite N.add_0_r.
  - right. exists q, (S i). cbn [length nth_error]. split; [lia|]. split; [exact Hq|]. do 2 f_equal. lia.
Qed.

Lemma tok_perm d hi t t' : Permutation t t' -> tok d hi t -> tok d hi t'.
Proof.
  intros P [H1 H2 H3]. split.
  - eapply Permutation_NoDup; [|exact H1]. now apply Permutation_map.
  - eapply Permutation_NoDup; [|exact H2]. now apply Permutation_map.
  - eapply Permutation_Forall; eauto.
Qed.

Lemma tok_fresh d hi t : tok d hi t -> hi <= 0xFF80 ->
  StronglySorted (fun a b => u16_le (snd b) (snd a)) t -> fresh_codes d t.
Proof.
  intros [H1 H2 H3] Hhi Hs. split.
  - eapply Forall_impl; [|exact H3]. intros e (x & y & c & -> & L). cbn. split; [discriminate|].
    exists c. split; [reflexivity|lia].
  - clear H1 H3. induction Hs as [|e t Hs IH Hf]; [constructor|]. cbn [map] in H2. inversion H2 as [|? ? Ha Hb]; subst.
    constructor; [auto|]. rewrite Forall_forall in *. intros e' He'. split; [|auto].
    intro E. apply Ha. rewrite E. now apply in_map.
Qed.

Lemma reload_table_tok t : NoDup (map fst t) -> reload_table t = t.
Proof.
  unfold reload_table. intro H.
  assert (G : forall t acc, NoDup (map fst acc ++ map fst t) ->
    fold_left (fun t e => assign t (fst e) (snd e)) t acc = acc ++ t).
  { clear. induction t as [|e t IH]; intros acc H; cbn [fold_left]; [now rewrite app_nil_r|].
    cbn [map] in H. rewrite assign_new.
    - rewrite IH; [rewrite <- app_assoc; now destruct e|]. rewrite map_app. cbn. rewrite <- app_assoc. exact H.
    - intro Hin. apply NoDup_remove_2 in H. apply H. apply in_or_app. now left. }
  now rewrite (G t []).
Qed.

Lemma find_max_bound s : find_max_16bit_value s < 0x7FFF.
Proof.
  unfold find_max_16bit_value. assert (G : forall s m, m < 0x7FFF ->
    fold_left (fun m c => if (m <? c) && (c <? 0x7FFF) then c else m) s m < 0x7FFF).
  { clear. induction s as [|c s IH]; intros m H; cbn [fold_left]; [exact H|]. apply IH.
    destruct (N.ltb_spec m c), (N.ltb_spec c 0x7FFF); cbn; lia. }
  apply G. lia.
Qed.

Lemma find_max_single c : find_max_16bit_value [c] = if (0 <? c) && (c <? 0x7FFF) then c else 0.
Proof. reflexivity. Qed.

Lemma reload_next_bounds codes : forall next,
  next <= reload_next next codes /\ reload_next next codes <= N.max next 0x7FFF /\
  forall e c, In e codes -> snd e = [c] -> c < 0x7FFF -> c < reload_next next codes.
Proof.
  unfold reload_next. induction codes as [|e codes IH]; intro next; cbn [fold_left].
  - split; [lia|]. split; [lia|]. intros ? ? [].
  - set (n1 := N.max _ next).
    pose proof (find_max_bound (fst e)) as B1. pose proof (find_max_bound (snd e)) as B2.
    assert (Hn1 : next <= n1 /\ n1 <= N.max next 0x7FFF).
    { unfold n1. rewrite N.mod_small by lia. lia. }
    destruct (IH n1) as (I1 & I2 & I3). split; [lia|]. split; [lia|].
    intros e' c [<-|He'] E L; [|eauto]. assert (c < n1); [|lia].
    unfold n1. rewrite N.mod_small by lia. rewrite E in *. rewrite find_max_single in *.
    destruct (N.ltb_spec 0 c), (N.ltb_spec c 0x7FFF); cbn [andb] in *; lia.
Qed.

(** ** the vocabulary *)
Fixpoint cnt (v : vocab) (k : str16) : N :=
  match v with [] => 0 | (k', n) :: t => if key_eqb k' k then n else cnt t k end.

Lemma cnt_add v k k' : cnt (vocab_add v k) k' = cnt v k' + (if key_eqb k k' then 1 else 0).
Proof.
  induction v as [|[a n] v IH]; cbn [vocab_add cnt].
  - destruct (key_eqb k k'); reflexivity.
  - destruct (key_eqb_spec a k) as [->|Q]; cbn [cnt].
    + destruct (key_eqb_spec k k'); lia.
    + rewrite IH. destruct (key_eqb_spec a k') as [->|Q2]; [|reflexivity].
      destruct (key_eqb_spec k k'); [congruence|lia].
Qed.

Lemma add_keys v k x : In x (keys (vocab_add v k)) <-> In x (keys v) \/ x = k.
Proof.
  induction v as [|[a n] v IH]; cbn [vocab_add keys map fst In].
  - intuition.
  - destruct (key_eqb_spec a k) as [->|Q]; cbn [keys map fst In].
    + unfold keys. intuition.
    + unfold keys in *. rewrite IH. intuition.
Qed.

Lemma add_nodup v k : NoDup (keys v) -> NoDup (keys (vocab_add v k)).
Proof.
  induction v as [|[a n] v IH]; cbn [vocab_add keys map fst]; intro H.
  - constructor; [intros []|constructor].
  - inversion H as [|? ? Ha Hb]; subst. destruct (key_eqb_spec a k) as [->|Q]; cbn [keys map fst].
    + constructor; assumption.
    + constructor; [|auto]. intro Hin. apply add_keys in Hin as [Hin|Hin]; [contradiction|congruence].
Qed.

Lemma add_pos v k : Forall (fun e => 0 < snd e) v -> Forall (fun e => 0 < snd e) (vocab_add v k).
Proof.
  induction 1 as [|[a n] v H Hf IH]; cbn [vocab_add].
  - repeat constructor.
  - destruct (key_eqb a k); constructor; cbn [snd] in *; auto; lia.
Qed.

Lemma in_cnt v k n : NoDup (keys v) -> In (k, n) v -> cnt v k = n.
Proof.
  induction v as [|[a m] v IH]; cbn [keys map fst cnt]; intros Hn Hin; [destruct Hin|].
  inversion Hn as [|? ? Ha Hb]; subst. destruct Hin as [E|Hin].
  - injection E as -> ->. now rewrite key_eqb_refl.
  - destruct (key_eqb_spec a k) as [->|Q]; [|auto]. exfalso. apply Ha.
    change k with (fst (k, n)). now apply in_map.
Qed.

Lemma cnt_in v k : In k (keys v) -> In (k, cnt v k) v.
Proof.
  induction v as [|[a m] v IH]; cbn [keys map fst cnt]; intros Hin; [destruct Hin|].
  destruct (key_eqb_spec a k) as [->|Q]; [now left|]. right. apply IH. destruct Hin; [contradiction|assumption].
Qed.

Lemma cnt_absent v k : ~ In k (keys v) -> cnt v k = 0.
Proof.
  induction v as [|[a m] v IH]; cbn [keys map fst cnt]; intros Hin; [reflexivity|].
  destruct (key_eqb_spec a k) as [->|Q]; [exfalso; apply Hin; now left|]. apply IH. intro. apply Hin. now right.
Qed.

Definition pkey (p : N * N) : str16 := [fst p; snd p].

Lemma adjacent_pairs_spec s : adjacent_pairs s = map pkey (combine s (tl s)).
Proof.
  induction s as [|a s IH]; [reflexivity|]. destruct s as [|b s]; [reflexivity|].
  change (adjacent_pairs (a :: b :: s)) with ([a; b] :: adjacent_pairs (b :: s)). rewrite IH. reflexivity.
Qed.

Lemma pkey_inj p q : pkey p = pkey q -> p = q.
Proof. destruct p, q. unfold pkey. cbn. congruence. Qed.

Definition vgood (ps : list (N * N)) (v : vocab) : Prop :=
  NoDup (keys v) /\ Forall (fun e => 0 < snd e) v /\
  (forall k, In k (keys v) <-> In k (map pkey ps)) /\
  forall p, cnt v (pkey p) = N.of_nat (count_occ pair_dec ps p).

Lemma vgood_add ps v p : vgood ps v -> vgood (ps ++ [p]) (vocab_add v (pkey p)).
Proof.
  intros (H1 & H2 & H3 & H4). split; [now apply add_nodup|]. split; [now apply add_pos|]. split.
  - intro k. rewrite add_keys, H3, map_app, in_app_iff. cbn. intuition.
  - intro q. rewrite cnt_add, H4, count_occ_app. cbn [count_occ].
    destruct (pair_dec p q) as [->|Q]; [rewrite key_eqb_refl; lia|].
    destruct (key_eqb_spec (pkey p) (pkey q)) as [Q'|]; [|lia]. apply pkey_inj in Q'. contradiction.
Qed.

Lemma vgood_fold qs : forall ps v, vgood ps v -> vgood (ps ++ qs) (fold_left vocab_add (map pkey qs) v).
Proof.
  induction qs as [|q qs IH]; intros ps v H; cbn [map fold_left]; [now rewrite app_nil_r|].
  replace (ps ++ q :: qs) with ((ps ++ [q]) ++ qs) by now rewrite <- app_assoc.
  apply IH. now apply vgood_add.
Qed.

Lemma buildVocab_good b tokens : Forall (fun t => t <> []) tokens ->
  exists v, buildVocab b tokens = Ok v /\
    vgood (flat_map (fun t => combine (encode b t) (tl (encode b t))) tokens) v.
Proof.
  unfold buildVocab. intro H.
  assert (G : forall tokens ps v, Forall (fun t => t <> []) tokens -> vgood ps v ->
    exists v', fold_left (fun r token =>
      do v <- r;
      match token with
      | [] => UB
      | _ => Ok (fold_left vocab_add (adjacent_pairs (encode b token)) v)
      end) tokens (Ok v) = Ok v' /\
    vgood (ps ++ flat_map (fun t => combine (encode b t) (tl (encode b t))) tokens) v').
  { clear. induction tokens as [|t tokens IH]; intros ps v H Hv; cbn [fold_left flat_map].
    - exists v. rewrite app_nil_r. auto.
    - inversion H as [|? ? Ht Hts]; subst. destruct t as [|c t]; [contradiction|]. cbn [obind].
      rewrite app_assoc. apply IH; [exact Hts|]. rewrite adjacent_pairs_spec. now apply vgood_fold. }
  apply (G tokens [] []); [exact H|]. split; [constructor|]. split; [constructor|]. split; [reflexivity|]. reflexivity.
Qed.

Lemma buildVocab_inv b tokens v : buildVocab b tokens = Ok v -> Forall (fun t => t <> []) tokens.
Proof.
  unfold buildVocab.
  set (f := fun (r : outcome vocab) token => _).
  assert (Hub : forall ts, fold_left f ts UB = UB) by (induction ts; auto).
  assert (G : forall ts v0, fold_left f ts (Ok v0) = Ok v -> Forall (fun t => t <> []) ts).
  { induction ts as [|t ts IH]; intros v0 H; [constructor|]. cbn [fold_left] in H.
    destruct t as [|c t]; [cbn in H; rewrite Hub in H; discriminate|].
    constructor; [discriminate|]. eapply IH. exact H. }
  apply G.
Qed.

Lemma vgood_vok next ps v : vgood ps v -> vok next v.
Proof.
  intros (H1 & H2 & H3 & H4). split; auto. rewrite Forall_forall. intros e He. left.
  assert (Hin : In (fst e) (keys v)) by now apply in_map. apply H3, in_map_iff in Hin as (p & E & _).
  exists (fst p), (snd p). now rewrite <- E.
Qed.
