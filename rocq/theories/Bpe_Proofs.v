From Coq Require Import Ascii String List Bool Arith NArith ZArith Lia Permutation Sorted.
From Verif Require Import Chars Outcome Replace_Model Replace_Spec Replace_Proofs PortableBytes_Model
  PortableBytes_Spec PortableBytes_Proofs Bpe_Model Bpe_Spec.
Import ListNotations.
Open Scope N_scope.

(** ** replacing by a fresh symbol and back *)
Lemma flat_map_id {A} (f : A -> list A) s : (forall x, In x s -> f x = [x]) -> flat_map f s = s.
Proof.
  induction s as [|x s IH]; intro H; [reflexivity|]. cbn [flat_map]. rewrite H by now left.
  rewrite IH; [reflexivity|]. intros; apply H; now right.
Qed.

Lemma replaced_back pat c s r : replaced pat [c] s r -> ~ In c s ->
  flat_map (fun x => if N.eqb c x then pat else [x]) r = s.
Proof.
  induction 1 as [s H|a b b' H _ IH]; intro Hc.
  - apply flat_map_id. intros x Hx. destruct (N.eqb_spec c x); [congruence|reflexivity].
  - rewrite !flat_map_app. cbn [flat_map]. rewrite N.eqb_refl, app_nil_r, IH.
    + rewrite flat_map_id; [reflexivity|]. intros x Hx. destruct (N.eqb_spec c x); [|reflexivity].
      subst. exfalso. apply Hc. apply in_or_app. now left.
    + intro Hb. apply Hc. apply in_or_app. right. apply in_or_app. now right.
Qed.

Lemma forward_back s pat c : pat <> [] -> ~ In c s ->
  replace_all N.eqb (replace_all N.eqb s pat [c]) [c] pat = s.
Proof.
  intros Hp Hc. rewrite (replace_all_char N.eqb N.eqb_spec).
  eapply replaced_back; [|exact Hc]. now apply (replace_all_spec N.eqb N.eqb_spec).
Qed.

Lemma replaced_in (pat rep s r : list N) x : replaced pat rep s r -> In x r -> In x s \/ In x rep.
Proof.
  induction 1 as [s H|a b b' H _ IH]; [auto|]. rewrite !in_app_iff. intuition.
Qed.

Lemma replaced_length (pat rep s r : list N) : replaced pat rep s r -> (length rep <= length pat)%nat ->
  (length r <= length s)%nat.
Proof.
  induction 1 as [s H|a b b' H _ IH]; intro L; [lia|]. rewrite !app_length. specialize (IH L). lia.
Qed.

Lemma forward_in s p x : fst p <> [] -> In x (apply_forward s p) -> In x s \/ In x (snd p).
Proof.
  intros Hp H. eapply replaced_in; [|exact H]. now apply (replace_all_spec N.eqb N.eqb_spec).
Qed.

(** ascending table *)
Definition code_of (p : code_pair) : N := hd 0 (snd p).
Definition asc (l : list code_pair) : Prop := StronglySorted (fun a b => code_of a < code_of b) l.
Definition single (p : code_pair) : Prop := fst p <> [] /\ snd p = [code_of p].

Lemma forward_backward l s : asc l -> Forall single l -> (forall p, In p l -> ~ In (code_of p) s) ->
  fold_left apply_backward (rev l) (fold_left apply_forward l s) = s.
Proof.
  revert s; induction l as [|p l IH]; intros s Ha Hs Hf; [reflexivity|].
  inversion Ha as [|? ? Ha1 Ha2]; subst. inversion Hs as [|? ? Hs1 Hs2]; subst.
  cbn [rev fold_left]. rewrite fold_left_app. cbn [fold_left].
  rewrite IH; auto.
  - unfold apply_backward, apply_forward. destruct Hs1 as [Hn Hc]. rewrite Hc.
    apply forward_back; auto. apply Hf. now left.
  - intros q Hq Hin. apply forward_in in Hin; [|apply Hs1]. destruct Hin as [Hin|Hin].
    + apply (Hf q); [now right|exact Hin].
    + destruct Hs1 as [_ Hc]. rewrite Hc in Hin. cbn [In] in Hin. destruct Hin as [E|[]].
      rewrite Forall_forall in Ha2. specialize (Ha2 q Hq). lia.
Qed.

Lemma forward_length l s : Forall (fun p => (1 <= length (snd p) <= length (fst p))%nat) l ->
  (length (fold_left apply_forward l s) <= length s)%nat.
Proof.
  intro H; revert s; induction H as [|p l Hp _ IH]; intro s; cbn [fold_left]; [lia|].
  etransitivity; [apply IH|]. eapply replaced_length; [|apply Hp].
  apply (replace_all_spec N.eqb N.eqb_spec). destruct (fst p); [cbn in Hp; lia|discriminate].
Qed.

Lemma u16_le_single a b : u16_le [a] [b] <-> a <= b.
Proof.
  split; intro H.
  - inversion H; subst; lia.
  - destruct (N.eq_dec a b) as [->|N]; [constructor 3; constructor|constructor 2; lia].
Qed.

Lemma fresh_asc d t : fresh_codes d t -> asc (rev t) /\ Forall single (rev t) /\
  forall p, In p (rev t) -> d < code_of p < 0xFF80.
Proof.
  intros [H1 H2].
  assert (S : Forall single t).
  { eapply Forall_impl; [|exact H1]. intros p (Hn & c & E & _). split; [exact Hn|]. unfold code_of. now rewrite E. }
  assert (B : forall p, In p t -> d < code_of p < 0xFF80).
  { rewrite Forall_forall in H1. intros p Hp. destruct (H1 p Hp) as (_ & c & E & B). unfold code_of. now rewrite E. }
  repeat split.
  - unfold asc. clear H1 B. induction H2 as [|p t Ht IH Hp]; [constructor|].
    inversion S as [|? ? Sp St]; subst. specialize (IH St). cbn [rev].
    assert (Hlt : Forall (fun q => code_of q < code_of p) t).
    { rewrite Forall_forall in *. intros q Hq. destruct (Hp q Hq) as [N L].
      destruct (St q Hq) as [_ Eq], Sp as [_ Ep]. rewrite Ep, Eq in *.
      apply u16_le_single in L. assert (code_of p <> code_of q) by congruence. lia. }
    clear - IH Hlt. apply Forall_rev in Hlt. induction IH as [|q l Hl IHl Hq]; cbn [app].
    + repeat constructor.
    + inversion Hlt; subst. constructor; [auto|]. apply Forall_app. split; [exact Hq|]. constructor; auto.
  - now apply Forall_rev.
  - apply B. now apply in_rev.
  - apply B. now apply in_rev.
Qed.

Lemma code_range c : code c < 256.
Proof. apply N_ascii_bounded. Qed.

Lemma symbol_eq c : char_to_u16 c = symbol c. Proof. reflexivity. Qed.

Lemma char_u16_range c : char_to_u16 c < 128 \/ 0xFF80 <= char_to_u16 c.
Proof. unfold char_to_u16. pose proof (code_range c). destruct (N.ltb_spec (code c) 128); lia. Qed.

Lemma char_roundtrip c : u16_to_char (char_to_u16 c) = c.
Proof.
  unfold u16_to_char, char_to_u16. pose proof (code_range c).
  assert (E : (if code c <? 128 then code c else 65280 + code c) mod 256 = code c).
  { destruct (N.ltb_spec (code c) 128).
    - apply N.mod_small. lia.
    - replace (65280 + code c) with (code c + 255 * 256) by lia.
      rewrite N.mod_add by lia. apply N.mod_small. lia. }
  rewrite E. apply ascii_N_embedding.
Qed.

Lemma decode_encode_fresh b token : 127 <= delimiter_code b -> 
  fresh_codes (delimiter_code b) (ordered_bpe_codes b) -> decode b (encode b token) = Ok token.
Proof.
  intros Hd Hf. destruct token as [|c t]; [reflexivity|]. set (token := c :: t).
  destruct (fresh_asc _ _ Hf) as (A & Sg & B).
  set (s := delimiter_code b :: map char_to_u16 token ++ [delimiter_code b]).
  assert (E : encode b token = fold_left apply_forward (rev (ordered_bpe_codes b)) s) by reflexivity.
  assert (R : fold_left apply_backward (ordered_bpe_codes b) (encode b token) = s).
  { rewrite E. rewrite <- (rev_involutive (ordered_bpe_codes b)) at 1.
    apply forward_backward; auto. intros p Hp Hin. specialize (B p Hp).
    cbn [In] in Hin. subst s. destruct Hin as [Hin|Hin]; [lia|].
    apply in_app_or in Hin. destruct Hin as [Hin|[Hin|[]]]; [|lia].
    apply in_map_iff in Hin as (x & Ex & _). pose proof (char_u16_range x). lia. }
  unfold decode. destruct (encode b token) as [|e0 e] eqn:Ee.
  { exfalso. clear - R. assert (forall l, fold_left apply_backward l [] = []) as H.
    { induction l as [|p l IH]; [reflexivity|]. cbn [fold_left].
      assert (apply_backward [] p = []) as ->; [|exact IH].
      unfold apply_backward, replace_all. destruct (snd p); reflexivity. }
    rewrite H in R. discriminate. }
  rewrite R. subst s. cbn [length]. rewrite app_length, map_length. cbn [length].
  destruct (Nat.ltb_spec (S (length token + 1)) 2); [lia|].
  cbn [tl]. rewrite removelast_last, map_map. f_equal.
  rewrite (map_ext _ (fun x => x)); [apply map_id|]. intro; apply char_roundtrip.
Qed.

Lemma encode_length b token : 
  Forall (fun p => (1 <= length (snd p) <= length (fst p))%nat) (ordered_bpe_codes b) ->
  (length (encode b token) <= length token + 2)%nat.
Proof.
  intro H. destruct token as [|c t]; [cbn; lia|]. unfold encode.
  etransitivity; [apply forward_length; now apply Forall_rev|].
  cbn [length]. rewrite app_length, map_length. cbn. lia.
Qed.

(** ** vocabulary *)
Lemma key_eqb_spec a b : reflect (a = b) (key_eqb a b).
Proof. unfold key_eqb. destruct (list_eq_dec N.eq_dec a b); constructor; auto. Qed.
Lemma key_eqb_refl a : key_eqb a a = true.
Proof. destruct (key_eqb_spec a a); congruence. Qed.

Definition keys (v : vocab) : list str16 := map fst v.

Lemma existsb_key (v : vocab) k : existsb (fun e => key_eqb (fst e) k) v = true <-> In k (keys v).
Proof.
  rewrite existsb_exists. unfold keys. rewrite in_map_iff. split; intros (e & H1 & H2).
  - exists e. destruct (key_eqb_spec (fst e) k); [auto|discriminate].
  - exists e. split; [exact H2|]. subst. apply key_eqb_refl.
Qed.
Lemma emplace_new v k n : ~ In k (keys v) -> emplace v k n = v ++ [(k, n)].
Proof.
  intro H. unfold emplace. destruct (existsb _ v) eqn:E; [|reflexivity].
  apply existsb_key in E. contradiction.
Qed.

Lemma contains_short k mf : length mf = 2%nat -> (length k <= 2)%nat -> contains k mf = true -> k = mf.
Proof.
  unfold contains. intros Hm Hk. destruct (find_split N.eqb mf k) as [[a b]|] eqn:E; [|discriminate].
  intros _. apply (find_split_some N.eqb N.eqb_spec) in E. destruct E as [E _].
  subst k. rewrite !app_length in Hk. destruct a; [|cbn in Hk; lia]. destruct b; [|cbn in Hk; lia].
  cbn. apply app_nil_r.
Qed.

(** what a vocabulary holds during training: pairs of symbols, and codes given since *)
Record vok (next : N) (v : vocab) : Prop := {
  vok_nodup : NoDup (keys v);
  vok_pos : Forall (fun e => 0 < snd e) v;
  vok_shape : Forall (fun e => (exists x y, fst e = [x; y]) \/ exists c, fst e = [c] /\ c < next) v }.

Lemma vok_perm next v v' : Permutation v v' -> vok next v -> vok next v'.
Proof.
  intros P [H1 H2 H3]. split.
  - eapply Permutation_NoDup; [|exact H1]. unfold keys. now apply Permutation_map.
  - eapply Permutation_Forall; eauto.
  - eapply Permutation_Forall; eauto.
Qed.

Definition others (mf : str16) (v : vocab) : vocab := filter (fun e => negb (key_eqb (fst e) mf)) v.

Lemma others_keys mf v k : In k (keys (others mf v)) <-> In k (keys v) /\ k <> mf.
Proof.
  unfold keys, others. rewrite !in_map_iff. split.
  - intros (e & <- & H). apply filter_In in H as [H1 H2]. destruct (key_eqb_spec (fst e) mf); [discriminate|].
    split; [|assumption]. eauto.
  - intros [(e & <- & H) N]. exists e. split; [reflexivity|]. apply filter_In. split; [exact H|].
    destruct (key_eqb_spec (fst e) mf); [contradiction|reflexivity].
Qed.

Lemma keys_app a b : keys (a ++ b) = keys a ++ keys b.
Proof. apply map_app. Qed.

Lemma NoDup_filter_keys f (v : vocab) : NoDup (keys v) -> NoDup (keys (filter f v)).
Proof.
  induction v as [|e v IH]; intro H; [constructor|]. inversion H; subst. cbn [filter].
  destruct (f e); [|auto]. cbn [keys map]. constructor; [|auto].
  intro Hin. apply H2. unfold keys in *. apply in_map_iff in Hin as (x & Ex & Hx).
  apply filter_In in Hx as [Hx _]. rewrite <- Ex. now apply in_map.
Qed.

Lemma fold_emplace (g : vocab -> str16 * N -> vocab) (v acc : vocab) :
  NoDup (keys acc ++ keys v) ->
  (forall acc e, In e v -> ~ In (fst e) (keys acc) -> g acc e = acc ++ [e]) ->
  fold_left g v acc = acc ++ v.
Proof.
  revert acc; induction v as [|e v IH]; intros acc Hn Hg; cbn [fold_left]; [now rewrite app_nil_r|].
  cbn [keys map] in Hn. pose proof (NoDup_remove_2 _ _ _ Hn) as Hne.
  rewrite Hg; [|now left|intro; apply Hne; apply in_or_app; now left].
  rewrite IH.
  - now rewrite <- app_assoc.
  - rewrite keys_app. cbn. rewrite <- app_assoc. exact Hn.
  - intros acc' e' He'. apply Hg. now right.
Qed.

Lemma update_exact next v x y n : vok next v ->
  updateCode v [x; y] n [next] = others [x; y] v ++ [([next], n)].
Proof.
  intros [H1 H2 H3]. unfold updateCode. fold (others [x; y] v).
  set (o := others [x; y] v).
  assert (Hsub : forall e, In e o -> In e v /\ fst e <> [x; y]).
  { intros e He. apply filter_In in He as [Ha Hb]. split; [exact Ha|].
    destruct (key_eqb_spec (fst e) [x; y]); [discriminate|assumption]. }
  rewrite (fold_emplace _ o []).
  - cbn [app]. apply emplace_new. intro Hin. unfold keys in Hin. apply in_map_iff in Hin as (e & Ee & He).
    destruct (Hsub e He) as [Hv _]. rewrite Forall_forall in H3. destruct (H3 e Hv) as [(a & b & E)|(c & E & L)].
    + congruence.
    + rewrite Ee in E. injection E as ->. lia.
  - cbn [keys map app]. now apply NoDup_filter_keys.
  - intros acc e He Hn. destruct e as [k m]. destruct (Hsub _ He) as [Hv Hne].
    cbn [fst] in *. assert (Hc : contains k [x; y] = false).
    { destruct (contains k [x; y]) eqn:C; [|reflexivity]. apply contains_short in C; [contradiction|reflexivity|].
      rewrite Forall_forall in H3. destruct (H3 _ Hv) as [(a & b & E)|(c & E & L)]; cbn [fst] in E; subst k; cbn; lia. }
    rewrite Hc. rewrite Forall_forall in H2. specialize (H2 _ Hv). cbn [snd] in H2.
    destruct (N.ltb_spec 0 m); [|lia]. now apply emplace_new.
Qed.

Lemma vok_others next v x y n : vok next v -> 0 < n ->
  vok (next + 1) (others [x; y] v ++ [([next], n)]).
Proof.
  intros [H1 H2 H3] Hn. split.
  - rewrite keys_app. cbn [keys map fst].
    apply (Permutation_NoDup (l := [next] :: keys (others [x; y] v))).
    + apply Permutation_cons_append.
    + constructor; [|now apply NoDup_filter_keys]. intro Hin. apply others_keys in Hin as [Hin _].
      unfold keys in Hin. apply in_map_iff in Hin as (e & Ee & He). rewrite Forall_forall in H3.
      destruct (H3 e He) as [(a & b & E)|(c & E & L)]; [congruence|]. rewrite Ee in E. injection E as ->. lia.
  - apply Forall_app. split; [|constructor; [exact Hn|constructor]].
    rewrite Forall_forall in *. intros e He. apply H2. now apply filter_In in He.
  - apply Forall_app. split.
    + rewrite Forall_forall in *. intros e He. apply filter_In in He as [He _].
      destruct (H3 e He) as [?|(c & E & L)]; [now left|]. right. exists c. split; [exact E|]. lia.
    + constructor; [|constructor]. right. exists next. split; [reflexivity|]. lia.
Qed.

Lemma merge_exact next v x y code : vok next v -> ~ In [x; y] (keys v) ->
  mergePairs v [x; y] code = v.
Proof.
  intros [H1 H2 H3] Hn. unfold mergePairs. rewrite (fold_emplace _ v []); [reflexivity|exact H1|].
  intros acc e He Hk.
  assert (Hc : contains (fst e) [x; y] = false).
  { destruct (contains (fst e) [x; y]) eqn:C; [|reflexivity]. apply contains_short in C; [|reflexivity|].
    - exfalso. apply Hn. rewrite <- C. now apply in_map.
    - rewrite Forall_forall in H3. destruct (H3 _ He) as [(a & b & E)|(c & E & L)]; rewrite E; cbn; lia. }
  rewrite Hc. rewrite emplace_new by auto. now destruct e.
Qed.

(** one round of training *)
Lemma round_exact next v x y n : vok next v -> 0 < n ->
  mergePairs (updateCode v [x; y] n [next]) [x; y] [next] = others [x; y] v ++ [([next], n)].
Proof.
  intros H Hn. rewrite (update_exact next) by auto.
  apply (merge_exact (next + 1)); [now apply vok_others|].
  rewrite keys_app, in_app_iff. intros [Hin|[E|[]]]; [|discriminate].
  apply others_keys in Hin. now destruct Hin.
Qed.

(** ** the most frequent pair *)
Lemma fmf_spec v m : let r := findMostFrequentPair v m in
  (r = ([], 0) /\ forall e, In e v -> (1 < length (fst e))%nat -> ~ (0 < snd e /\ m <= snd e)) \/
  (In r v /\ (1 < length (fst r))%nat /\ 0 < snd r /\ m <= snd r /\
   forall e, In e v -> (1 < length (fst e))%nat -> snd e <= snd r).
Proof.
  cbv zeta. unfold findMostFrequentPair.
  set (f := fun (best e : str16 * N) => _).
  assert (G : forall v seen best,
    ((best = ([], 0) /\ forall e, In e seen -> (1 < length (fst e))%nat -> ~ (0 < snd e /\ m <= snd e)) \/
     (In best seen /\ (1 < length (fst best))%nat /\ 0 < snd best /\ m <= snd best /\
      forall e, In e seen -> (1 < length (fst e))%nat -> snd e <= snd best)) ->
    let r := fold_left f v best in
    ((r = ([], 0) /\ forall e, In e (seen ++ v) -> (1 < length (fst e))%nat -> ~ (0 < snd e /\ m <= snd e)) \/
     (In r (seen ++ v) /\ (1 < length (fst r))%nat /\ 0 < snd r /\ m <= snd r /\
      forall e, In e (seen ++ v) -> (1 < length (fst e))%nat -> snd e <= snd r))).
  { clear v. induction v as [|e v IH]; intros seen best H; cbn [fold_left]; [now rewrite app_nil_r|].
    replace (seen ++ e :: v) with ((seen ++ [e]) ++ v) by now rewrite <- app_assoc.
    apply IH. unfold f.
    destruct (Nat.ltb_spec 1 (length (fst e))) as [Hl|Hl]; cbn [andb].
    - destruct (N.ltb_spec (snd best) (snd e)) as [Hb|Hb]; cbn [andb].
      + destruct (N.leb_spec m (snd e)) as [Hm|Hm].
        * right. split; [apply in_or_app; right; now left|]. split; [exact Hl|]. split; [lia|]. split; [exact Hm|].
          intros x Hx Hlx. apply in_app_or in Hx as [Hx|[<-|[]]]; [|lia].
          destruct H as [[_ H]|(_ & _ & _ & _ & H)]; specialize (H x Hx Hlx); lia.
        * destruct H as [[-> H]|(H1 & H2 & H3 & H4 & H5)].
          -- left. split; [reflexivity|]. intros x Hx Hlx. apply in_app_or in Hx as [Hx|[<-|[]]]; [auto|]. lia.
          -- right. split; [apply in_or_app; now left|]. repeat split; auto.
             intros x Hx Hlx. apply in_app_or in Hx as [Hx|[<-|[]]]; [auto|]. lia.
      + destruct H as [[-> H]|(H1 & H2 & H3 & H4 & H5)].
        * left. split; [reflexivity|]. cbn [snd] in Hb. intros x Hx Hlx. apply in_app_or in Hx as [Hx|[<-|[]]]; [auto|]. lia.
        * right. split; [apply in_or_app; now left|]. repeat split; auto.
          intros x Hx Hlx. apply in_app_or in Hx as [Hx|[<-|[]]]; [auto|]. lia.
    - destruct H as [[-> H]|(H1 & H2 & H3 & H4 & H5)].
      + left. split; [reflexivity|]. intros x Hx Hlx. apply in_app_or in Hx as [Hx|[<-|[]]]; [auto|]. lia.
      + right. split; [apply in_or_app; now left|]. repeat split; auto.
        intros x Hx Hlx. apply in_app_or in Hx as [Hx|[<-|[]]]; [auto|]. lia. }
  specialize (G v [] ([], 0)). cbn [app] in G. apply G. left. split; [reflexivity|]. intros e [].
Qed.
