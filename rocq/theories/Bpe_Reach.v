(** Proofs about byte pair models a program can reach, and about one training of a new model. *)
From Coq Require Import Ascii String List Bool Arith NArith ZArith Lia Permutation Sorted ZifyBool ZifyNat ZifyN.
From Verif Require Import Outcome Chars Replace_Model Replace_Spec Replace_Proofs PortableBytes_Model
  Bpe_Model Bpe_Spec Bpe_Proofs Bpe_Loop Bpe_Files.
Import ListNotations.
Open Scope N_scope.
Ltac Zify.zify_post_hook ::= Z.div_mod_to_equations.

Record inv (b : bpe) (n : nat) : Prop := {
  inv_d : 127 <= delimiter_code b < 0x7FFE;
  inv_next : delimiter_code b < next_code b <= 0x7FFF + N.of_nat n;
  inv_tok : tok (delimiter_code b) (0x7FFF + N.of_nat n) (ordered_bpe_codes b);
  inv_sorted : StronglySorted (fun a b => u16_le (snd b) (snd a)) (ordered_bpe_codes b);
  inv_codes : forall e c, In e (ordered_bpe_codes b) -> snd e = [c] -> c < 0x7FFF \/ c < next_code b;
  inv_chars : Forall e16 (ordered_bpe_codes b) }.

Lemma encode_in b t x : In x (encode b t) -> Forall (fun e => fst e <> []) (ordered_bpe_codes b) ->
  x = delimiter_code b \/ (exists c, x = char_to_u16 c) \/ exists e, In e (ordered_bpe_codes b) /\ In x (snd e).
Proof.
  intros Hin H. destruct t as [|c t]; [destruct Hin|]. unfold encode in Hin.
  set (s := delimiter_code b :: _) in Hin.
  assert (G : forall l s, Forall (fun e => fst e <> []) l -> In x (fold_left apply_forward l s) ->
    In x s \/ exists e, In e l /\ In x (snd e)).
  { clear. induction l as [|p l IH]; intros s Hf Hin; cbn [fold_left] in Hin; [now left|].
    inversion Hf; subst. apply IH in Hin as [Hin|(e & He & Hx)]; [|right; exists e; split; [now right|exact Hx]|assumption].
    apply forward_in in Hin as [Hin|Hin]; [now left|right; exists p; split; [now left|exact Hin]|assumption]. }
  apply G in Hin as [Hin|(e & He & Hx)]; [| |now apply Forall_rev].
  - subst s. destruct Hin as [<-|Hin]; [now left|]. apply in_app_or in Hin as [Hin|[<-|[]]]; [|now left].
    apply in_map_iff in Hin as (a & <- & _). right. left. now exists a.
  - right. right. exists e. split; [|exact Hx]. now apply in_rev.
Qed.

Lemma char_u16_small c : char_to_u16 c < 65536.
Proof. pose proof (code_range c). unfold char_to_u16. destruct (code c <? 128); lia. Qed.

Lemma encode_small b n t x : inv b n -> N.of_nat n <= 32640 -> In x (encode b t) -> x < 65536.
Proof.
  intros I Hn Hin. apply encode_in in Hin.
  - destruct Hin as [->|[[c ->]|(e & He & Hx)]].
    + pose proof (inv_d _ _ I). lia.
    + apply char_u16_small.
    + pose proof (inv_chars _ _ I) as H. rewrite Forall_forall in H. destruct (H e He) as [_ [_ H2]].
      rewrite Forall_forall in H2. auto.
  - eapply Forall_impl; [|apply (tok_shape _ _ _ (inv_tok _ _ I))]. intros e (x' & y & c & -> & _). discriminate.
Qed.

Lemma combine_in {A} (s : list A) p : In p (combine s (tl s)) -> In (fst p) s /\ In (snd p) s.
Proof.
  intro H. destruct p as [x y]. split.
  - eapply in_combine_l; eauto.
  - apply in_combine_r in H. destruct s; [destruct H|now right].
Qed.

Lemma e16_pair x y c : x < 65536 -> y < 65536 -> c < 65536 -> e16 ([x; y], [c]).
Proof.
  intros. split; (split; [cbn; lia|]); repeat constructor; assumption.
Qed.

(** one training call, given the table and code it starts from *)
Lemma train_step order stop sorter b n tokens m k next table b' :
  any_order order -> sorts_by_code sorter -> inv b n -> N.of_nat n <= 32640 ->
  (do v <- buildVocab b tokens;
   let (t, nx) := train_loop order stop (train_fuel v) m k 0 next table v in
   Ok {| ordered_bpe_codes := sorter t; delimiter_code := delimiter_code b; next_code := nx |}) = Ok b' ->
  tok (delimiter_code b) next table -> delimiter_code b < next <= 0x7FFF + N.of_nat n -> Forall e16 table ->
  exists l : list (N * N),
    inv b' (S n) /\ delimiter_code b' = delimiter_code b /\ next_code b' = next + N.of_nat (length l) /\
    Permutation (ordered_bpe_codes b') (assign_all table next l).
Proof.
  intros Ho Hs I Hn Hb Ht Hnext He16.
  destruct (buildVocab b tokens) as [v| |] eqn:Ev; try discriminate.
  pose proof (buildVocab_inv _ _ _ Ev) as Hne.
  destruct (buildVocab_good b tokens Hne) as (v0 & Ev0 & Hv). rewrite Ev in Ev0. injection Ev0 as <-.
  cbn [obind] in Hb.
  destruct (loop_spec order stop Ho m k (train_fuel v) 0 next table v) as (l & L0 & L1 & L2 & L3 & L4 & L5 & L6 & L7 & L8).
  { pose proof (npairs_le v). unfold train_fuel. lia. } { lia. } { now apply (vgood_vok _ _ _ Hv). }
  rewrite L0 in Hb. injection Hb as <-. exists (map fst l). cbn [delimiter_code next_code ordered_bpe_codes].
  rewrite map_length.
  destruct (Hs (assign_all table next (map fst l))) as [Hp Hst].
  assert (Ht2 := tok_assign_all _ (map fst l) table next Ht (proj1 Hnext)).
  rewrite map_length in Ht2.
  assert (Hbound : next + N.of_nat (length l) <= 0x7FFF + N.of_nat (S n)) by (clear - L5 Hnext; lia).
  split; [|split; [reflexivity|split; [reflexivity|exact Hp]]].
  split; cbn [delimiter_code next_code ordered_bpe_codes].
  - apply (inv_d _ _ I).
  - lia.
  - eapply tok_perm; [apply Permutation_sym; exact Hp|]. eapply tok_mono; eauto.
  - exact Hst.
  - intros e c He Ec. right. eapply Permutation_in in He; [|exact Hp].
    destruct Ht2 as [_ _ Hsh]. rewrite Forall_forall in Hsh. destruct (Hsh e He) as (x & y & c' & -> & Hc). cbn in Ec.
    injection Ec as ->. lia.
  - eapply Permutation_Forall; [apply Permutation_sym; exact Hp|]. rewrite Forall_forall. intros e He.
    apply assign_all_in in He as [He|(p & i & Hi & Hpi & ->)].
    + rewrite Forall_forall in He16. auto.
    + rewrite map_length in Hi. apply nth_error_In in Hpi. apply in_map_iff in Hpi as (pe & <- & Hpe).
      apply L2 in Hpe as (Hpe & _). destruct Hv as (_ & _ & Hk & _).
      assert (Hin : In (pk pe) (keys v)) by (change (pk pe) with (fst (pk pe, snd pe)); now apply in_map).
      apply Hk, in_map_iff in Hin as (q & Eq & Hq). unfold pkey, pk in Eq. injection Eq as Eq1 Eq2.
      apply in_flat_map in Hq as (t & _ & Hq). apply combine_in in Hq as [Hq1 Hq2].
      rewrite <- Eq1, <- Eq2. apply e16_pair.
      * eapply encode_small; eauto.
      * eapply encode_small; eauto.
      * lia.
Qed.

Lemma tok_nil d hi : tok d hi [].
Proof. split; constructor. Qed.

Lemma tok_lower d hi lo t : tok d hi t -> (forall e c, In e t -> snd e = [c] -> c < lo) -> tok d lo t.
Proof.
  intros [H1 H2 H3] H. split; auto. rewrite Forall_forall in *. intros e He.
  destruct (H3 e He) as (x & y & c & E & L). exists x, y, c. split; [exact E|].
  specialize (H e c He). rewrite E in H. specialize (H eq_refl). lia.
Qed.

Lemma reload_ok b n : inv b n ->
  reload_table (ordered_bpe_codes b) = ordered_bpe_codes b /\
  (delimiter_code b < reload_next (next_code b) (ordered_bpe_codes b) <= 0x7FFF + N.of_nat n) /\
  tok (delimiter_code b) (reload_next (next_code b) (ordered_bpe_codes b)) (ordered_bpe_codes b).
Proof.
  intros I. destruct (reload_next_bounds (ordered_bpe_codes b) (next_code b)) as (R1 & R2 & R3).
  destruct (inv_next _ _ I) as [N1 N2].
  split; [apply reload_table_tok; apply (inv_tok _ _ I)|]. split; [lia|].
  eapply tok_lower; [apply (inv_tok _ _ I)|]. intros e c He Ec.
  destruct (inv_codes _ _ I e c He Ec) as [L|L]; [eauto|lia].
Qed.

Lemma reachable_inv b n : reachable b n -> N.of_nat n <= 32641 -> inv b n.
Proof.
  induction 1 as [d Hd|order stop sorter b n tokens m k b' Ho Hs Hr IH Ht|
                  order stop sorter b n tokens b' Ho Hs Hr IH Ht|b n d Hr IH Hc]; intro Hn.
  - assert (E : (d + 1) mod 65536 = d + 1) by (apply N.mod_small; lia).
    split; cbn [new_bpe delimiter_code next_code ordered_bpe_codes]; rewrite ?E; try lia.
    + apply tok_nil.
    + constructor.
    + intros ? ? [].
    + constructor.
  - specialize (IH ltac:(lia)). unfold train in Ht.
    destruct (reload_ok _ _ IH) as (R1 & R2 & R3). rewrite R1 in Ht.
    eapply train_step in Ht as (l & I & _); eauto. { lia. } { apply (inv_chars _ _ IH). }
  - specialize (IH ltac:(lia)). unfold train_on_file in Ht.
    eapply train_step in Ht as (l & I & _); eauto. { lia. } { apply tok_nil. } { apply (inv_next _ _ IH). }
  - specialize (IH Hn). destruct IH as [I1 I2 I3 I4 I5 I6].
    rewrite load_save_gen; [|exact I6|lia].
    assert (E : (delimiter_code b + 1) mod 65536 = delimiter_code b + 1) by (apply N.mod_small; lia).
    split; cbn [new_bpe delimiter_code next_code ordered_bpe_codes app]; rewrite ?E; auto; try lia.
    intros e c He Ec. left. rewrite Forall_forall in Hc. apply (Hc e He). rewrite Ec. now left.
Qed.

Lemma reachable_round_trip b n t : reachable b n -> N.of_nat n <= 32641 -> decode b (encode b t) = Ok t.
Proof.
  intros Hr Hn. pose proof (reachable_inv _ _ Hr Hn) as I. apply decode_encode_fresh.
  - apply (inv_d _ _ I).
  - eapply tok_fresh; [apply (inv_tok _ _ I)|lia|apply (inv_sorted _ _ I)].
Qed.

Lemma reachable_length b n t : reachable b n -> N.of_nat n <= 32641 ->
  (length (encode b t) <= length t + 2)%nat.
Proof.
  intros Hr Hn. pose proof (reachable_inv _ _ Hr Hn) as I. apply encode_length.
  eapply Forall_impl; [|apply (tok_shape _ _ _ (inv_tok _ _ I))]. intros e (x & y & c & -> & _). cbn. lia.
Qed.

Lemma reachable_load b n b0 : reachable b n -> N.of_nat n <= 32641 -> ordered_bpe_codes b0 = [] ->
  ordered_bpe_codes (load b0 (save b)) = ordered_bpe_codes b /\
  delimiter_code (load b0 (save b)) = delimiter_code b.
Proof.
  intros Hr Hn H0. pose proof (reachable_inv _ _ Hr Hn) as I. rewrite load_save_gen.
  - cbn. now rewrite H0.
  - apply (inv_chars _ _ I).
  - pose proof (inv_d _ _ I). lia.
Qed.

(** every code given by [train] is new: not a code of the table, not a symbol of the encoded text *)
Lemma train_codes_new order stop sorter b n tokens m k b' :
  any_order order -> sorts_by_code sorter -> reachable b n -> N.of_nat n <= 32640 ->
  train order stop sorter b tokens m k = Ok b' ->
  exists c0 l, next_code b' = c0 + N.of_nat (length l) /\
    (forall e, In e (ordered_bpe_codes b') -> In e (ordered_bpe_codes b) \/
       exists i p, nth_error l i = Some p /\ e = ([fst p; snd p], [c0 + N.of_nat i])) /\
    (forall t x, In t tokens -> In x (encode b t) -> x < c0 \/ 0xFF80 <= x) /\
    (forall e c, In e (ordered_bpe_codes b) -> snd e = [c] -> c < c0) /\
    c0 + N.of_nat (length l) <= 0xFF80.
Proof.
  intros Ho Hs Hr Hn Ht. pose proof (reachable_inv _ _ Hr ltac:(lia)) as I. unfold train in Ht.
  destruct (reload_ok _ _ I) as (R1 & R2 & R3). rewrite R1 in Ht.
  eapply train_step in Ht as (l & I' & _ & E & P); eauto; [|apply (inv_chars _ _ I)].
  set (c0 := reload_next (next_code b) (ordered_bpe_codes b)) in *. clearbody c0.
  assert (Hc0 : forall e c, In e (ordered_bpe_codes b) -> snd e = [c] -> c < c0).
  { intros e c He Ec. destruct R3 as [_ _ H]. rewrite Forall_forall in H. destruct (H e He) as (x & y & c' & -> & L).
    cbn in Ec. injection Ec as ->. lia. }
  exists c0, l. split; [exact E|]. split; [|split; [|split; [exact Hc0|]]].
  - intros e He. eapply Permutation_in in He; [|exact P]. apply assign_all_in in He as [He|(p & i & Hi & Hp & ->)]; [now left|].
    right. eauto.
  - intros t x _ Hx. apply encode_in in Hx as [->|[[c ->]|(e & He & Hx)]].
    + left. lia.
    + pose proof (inv_d _ _ I). pose proof (char_u16_range c). lia.
    + left. pose proof (tok_shape _ _ _ (inv_tok _ _ I)) as H. rewrite Forall_forall in H.
      destruct (H e He) as (a & y & c & E' & _). apply (Hc0 e x He). rewrite E' in Hx |- *. cbn in Hx |- *.
      destruct Hx as [->|[]]. reflexivity.
    + eapply Forall_impl; [|apply (tok_shape _ _ _ (inv_tok _ _ I))]. intros e (x' & y & c & -> & _). discriminate.
  - pose proof (inv_next _ _ I'). lia.
Qed.

(** ** training a new model *)
Lemma assign_all_new ps : forall t c, NoDup ps -> (forall p, In p ps -> ~ In (pkey p) (map fst t)) ->
  assign_all t c ps = t ++ rev (coded c ps).
Proof.
  induction ps as [|p ps IH]; intros t c Hnd Hn; cbn [assign_all coded]; [now rewrite app_nil_r|].
  inversion Hnd as [|? ? Hp Hps]; subst. rewrite assign_new by (apply (Hn p); now left).
  rewrite IH; [|exact Hps|].
  - rewrite rev_app_distr. cbn [rev app]. now rewrite <- app_assoc.
  - intros q Hq. rewrite map_app, in_app_iff. cbn. intros [Hin|[Hin|[]]].
    + apply (Hn q); [now right|exact Hin].
    + change [fst p; snd p] with (pkey p) in Hin. apply pkey_inj in Hin. subst. contradiction.
Qed.

Lemma coded_in c ps e : In e (coded c ps) -> exists p d, e = (pkey p, [d]) /\ c <= d.
Proof.
  revert c. induction ps as [|p ps IH]; intros c H; [destruct H|]. cbn [coded] in H. apply in_app_or in H as [H|[<-|[]]].
  - apply IH in H as (q & d & -> & L). exists q, d. split; [reflexivity|lia].
  - exists p, c. split; [reflexivity|lia].
Qed.

Lemma coded_sorted c ps : StronglySorted (fun a b => snd a <> snd b /\ u16_le (snd b) (snd a)) (coded c ps).
Proof.
  revert c. induction ps as [|p ps IH]; intro c; cbn [coded]; [constructor|].
  specialize (IH (c + 1)). pose proof (coded_in (c + 1) ps) as Hin. induction (coded (c + 1) ps) as [|e t IHt]; cbn [app].
  - repeat constructor.
  - inversion IH as [|? ? Ha Hb]; subst. constructor.
    + apply IHt; [exact Ha|]. intros e' He'. apply Hin. now right.
    + apply Forall_app. split; [exact Hb|]. constructor; [|constructor]. cbn [snd].
      destruct (Hin e (or_introl eq_refl)) as (q & d & -> & L). cbn [snd]. split.
      * intro Q. injection Q as ->. lia.
      * apply u16_le_single. lia.
Qed.

Lemma u16_le_antisym a b : u16_le a b -> u16_le b a -> a = b.
Proof.
  induction 1 as [s|x y a b L|x a b H IH]; intro H2.
  - inversion H2; reflexivity.
  - inversion H2; subst; lia.
  - inversion H2; subst; [lia|]. f_equal. auto.
Qed.

Lemma sorted_unique (t u : list code_pair) : Permutation t u ->
  StronglySorted (fun a b => snd a <> snd b /\ u16_le (snd b) (snd a)) u ->
  StronglySorted (fun a b => u16_le (snd b) (snd a)) t -> t = u.
Proof.
  revert u; induction t as [|e t IH]; intros u P Hu Ht.
  - apply Permutation_nil in P. now subst.
  - destruct u as [|e' u]; [apply Permutation_sym, Permutation_nil in P; discriminate|].
    inversion Hu as [|? ? Hu1 Hu2]; inversion Ht as [|? ? Ht1 Ht2]; subst.
    assert (E : e = e').
    { assert (He : In e (e' :: u)) by (eapply Permutation_in; [exact P|now left]).
      assert (He' : In e' (e :: t)) by (eapply Permutation_in; [apply Permutation_sym; exact P|now left]).
      destruct He as [He|He]; [congruence|]. destruct He' as [He'|He']; [congruence|].
      rewrite Forall_forall in Hu2, Ht2. destruct (Hu2 e He) as [Q1 Q2]. specialize (Ht2 e' He').
      exfalso. apply Q1. now apply u16_le_antisym. }
    subst e'. f_equal. apply IH; auto. eapply Permutation_cons_inv; eauto.
Qed.

Lemma fresh_encode d t : t <> [] -> encode (new_bpe d) t = delimited d t.
Proof. destruct t; [contradiction|reflexivity]. Qed.

Lemma SS_decreasing (f : N * N -> N) l : (forall e, In e l -> f (fst e) = snd e) ->
  StronglySorted (fun a b : (N * N) * N => snd b <= snd a) l -> decreasing f (map fst l).
Proof.
  intros Hf H. induction H as [|e l Hs IH Hl]; cbn [map decreasing]; [exact I|]. split.
  - intros q Hq. apply in_map_iff in Hq as (e' & <- & He'). rewrite Forall_forall in Hl. specialize (Hl e' He').
    rewrite !Hf; [exact Hl|now left|now right].
  - apply IH. intros e' He'. apply Hf. now right.
Qed.

Lemma train_new order stop sorter d tokens m k b' :
  any_order order -> sorts_by_code sorter -> 127 <= d < 0x7FFE ->
  train order stop sorter (new_bpe d) tokens m k = Ok b' ->
  exists l : list (N * N),
    ordered_bpe_codes b' = coded (d + 1) l /\ delimiter_code b' = d /\ next_code b' = d + 1 + N.of_nat (length l) /\
    NoDup l /\ decreasing (frequency d tokens) l /\
    (forall p, In p l -> N.max 1 m <= frequency d tokens p) /\
    (forall p q, ~ In p l -> In q l -> frequency d tokens p <= frequency d tokens q) /\
    next_code b' <= 0x7FFF /\
    (0 <= k < 2 ^ 64 -> Z.of_nat (length l) <= Z.max 1 k)%Z /\
    ((forall i, stop i = false) -> (k = -1 \/ 0x7FFE <= k < 2 ^ 64)%Z ->
       0x7FFE <= next_code b' \/ forall p, ~ In p l -> frequency d tokens p < N.max 1 m).
Proof.
  intros Ho Hs Hd Ht. unfold train in Ht. cbn [new_bpe ordered_bpe_codes next_code reload_next reload_table fold_left delimiter_code] in Ht.
  change (fold_left _ [] ?x) with x in Ht. rewrite N.mod_small in Ht by lia.
  destruct (buildVocab (new_bpe d) tokens) as [v| |] eqn:Ev; try discriminate.
  pose proof (buildVocab_inv _ _ _ Ev) as Hne.
  destruct (buildVocab_good (new_bpe d) tokens Hne) as (v0 & Ev0 & Hv). rewrite Ev in Ev0. injection Ev0 as <-.
  cbn [obind] in Ht.
  assert (Eps : flat_map (fun t => combine (encode (new_bpe d) t) (tl (encode (new_bpe d) t))) tokens
                = flat_map (neighbours d) tokens).
  { clear - Hne. induction Hne as [|t ts Ht _ IH]; [reflexivity|]. cbn [flat_map].
    rewrite fresh_encode by exact Ht. now rewrite IH. }
  rewrite Eps in Hv. clear Eps.
  destruct (loop_spec order stop Ho m k (train_fuel v) 0 (d + 1) [] v) as (l & L0 & L1 & L2 & L3 & L4 & L5 & L6 & L7 & L8).
  { pose proof (npairs_le v). unfold train_fuel. lia. } { lia. } { now apply (vgood_vok _ _ _ Hv). }
  rewrite L0 in Ht. injection Ht as <-. cbn [ordered_bpe_codes delimiter_code next_code].
  destruct Hv as (V1 & V2 & V3 & V4).
  assert (Hfreq : forall p n, In (pkey p, n) v -> frequency d tokens p = n).
  { intros p n Hin. unfold frequency. rewrite <- V4. now apply in_cnt. }
  assert (Hfl : forall e, In e l -> frequency d tokens (fst e) = snd e).
  { intros e He. apply L2 in He as (He & _). apply Hfreq. exact He. }
  assert (Hzero : forall p, frequency d tokens p = 0 \/ In (pkey p, frequency d tokens p) v).
  { intro p. destruct (in_dec (list_eq_dec N.eq_dec) (pkey p) (keys v)) as [Hin|Hin].
    - right. unfold frequency. rewrite <- V4. now apply cnt_in.
    - left. unfold frequency. rewrite <- V4. now apply cnt_absent. }
  rewrite assign_all_new by auto. cbn [app].
  destruct (Hs (rev (coded (d + 1) (map fst l)))) as [Hp Hst].
  exists (map fst l). rewrite map_length. split.
  { apply sorted_unique; [|apply coded_sorted|exact Hst].
    eapply perm_trans; [exact Hp|apply Permutation_sym, Permutation_rev]. }
  split; [reflexivity|]. split; [reflexivity|]. split; [exact L1|].
  split; [now apply SS_decreasing|]. split; [|split; [|split; [|split]]].
  - intros p Hin. apply in_map_iff in Hin as (e & <- & He). rewrite Hfl by exact He. apply L2 in He as (_ & ? & ?). lia.
  - intros p q Hin Hq. apply in_map_iff in Hq as (e & <- & He). rewrite (Hfl e He).
    destruct (Hzero p) as [Z|Z]; [lia|]. destruct p as [x y]. eapply (L4 x y); eauto.
  - clear - L5 Hd. lia.
  - intro Hk. rewrite Z.mod_small in L6 by exact Hk. destruct L6 as [L6| ->]; [lia|cbn; lia].
  - intros Hst2 Hk. destruct (L8 Hst2) as [Q|Q].
    + split; [lia|]. destruct Hk as [->|Hk]; [vm_compute; discriminate|]. rewrite Z.mod_small; lia.
    + left. exact Q.
    + right. intros p Hpn. destruct (Hzero p) as [Z|Z]; [lia|]. destruct p as [x y]. specialize (Q x y _ Z Hpn). lia.
Qed.

(** the loop stops by itself: with more steps allowed it does the same *)
Lemma train_fuel_enough order stop b n tokens m k next table v extra :
  any_order order -> reachable b n -> N.of_nat n <= 32641 -> buildVocab b tokens = Ok v -> next < 65535 ->
  train_loop order stop (train_fuel v + extra) m k 0 next table v =
  train_loop order stop (train_fuel v) m k 0 next table v.
Proof.
  intros Ho Hr Hn Ev Hnext. pose proof (buildVocab_inv _ _ _ Ev) as Hne.
  destruct (buildVocab_good b tokens Hne) as (v0 & Ev0 & Hv). rewrite Ev in Ev0. injection Ev0 as <-.
  pose proof (npairs_le v). unfold train_fuel.
  apply loop_fuel; auto; try lia. now apply (vgood_vok _ _ _ Hv).
Qed.
