From Coq Require Import Ascii String List Bool Arith NArith Lia Permutation.
From Verif Require Import Chars Lines_Model Lines_Proofs FileSort_Model FileSort_Spec.
Import ListNotations.

Lemma code_inj x y : code x = code y -> x = y.
Proof. intro E. rewrite <- (ascii_N_embedding x), <- (ascii_N_embedding y). unfold code in E. now rewrite E. Qed.

Lemma str_leb_spec a b : str_leb a b = true <-> byte_le a b.
Proof.
  revert b; induction a as [|x a IH]; intro b.
  - cbn. split; [|reflexivity]. intros _. destruct b; [now left|right; constructor].
  - destruct b as [|y b]; cbn [str_leb].
    + split; [discriminate|]. intros [E|H]; [discriminate|inversion H].
    + destruct (N.ltb_spec (code x) (code y)) as [L|L].
      * split; [|reflexivity]. intros _. right. now constructor 2.
      * destruct (N.eqb_spec (code x) (code y)) as [E|E].
        { apply code_inj in E. subst y. rewrite IH. split.
          - intros [->|H]; [now left|right; now constructor 3].
          - intros [E|H]; [injection E as ->; now left|].
            inversion H; subst; [exfalso; unfold code in *; lia|now right]. }
        { split; [discriminate|]. intros [E'|H]; [injection E' as -> _; congruence|].
          inversion H; subst; unfold code in *; [lia|congruence]. }
Qed.

Lemma byte_lt_irrefl a : ~ byte_lt a a.
Proof. induction a; intro H; inversion H; subst; [lia|auto]. Qed.
Lemma byte_lt_trans a b c : byte_lt a b -> byte_lt b c -> byte_lt a c.
Proof.
  intro H; revert c; induction H; intros z Hz; inversion Hz; subst; try (constructor; auto; lia).
Qed.
Lemma byte_le_trans a b c : byte_le a b -> byte_le b c -> byte_le a c.
Proof.
  intros [->|H] [->|H']; unfold byte_le; auto. right. eapply byte_lt_trans; eauto.
Qed.
Lemma byte_le_antisym a b : byte_le a b -> byte_le b a -> a = b.
Proof.
  intros [->|H] [H'|H']; auto. exfalso. apply (byte_lt_irrefl a). eapply byte_lt_trans; eauto.
Qed.
Lemma byte_le_total a b : byte_le a b \/ byte_le b a.
Proof.
  revert b; induction a as [|x a IH]; intros [|y b].
  - left; now left.
  - left; right; constructor.
  - right; right; constructor.
  - destruct (N.lt_trichotomy (code x) (code y)) as [L|[E|L]].
    + left; right; now constructor 2.
    + apply code_inj in E. subst y. destruct (IH b) as [[->|H]|[->|H]].
      * left; now left. * left; right; now constructor 3.
      * left; now left. * right; right; now constructor 3.
    + right; right; now constructor 2.
Qed.

Lemma insert_perm l ls : Permutation (insert_line l ls) (l :: ls).
Proof.
  induction ls as [|h t IH]; cbn; [auto|]. destruct (str_leb l h); [auto|].
  rewrite IH. constructor.
Qed.
Lemma sort_perm ls : Permutation (sort_chunk ls) ls.
Proof. induction ls as [|l ls IH]; cbn; [auto|]. rewrite insert_perm. now constructor. Qed.

Lemma insert_ordered l ls : ordered byte_le ls -> ordered byte_le (insert_line l ls).
Proof.
  induction ls as [|h t IH]; cbn [insert_line ordered]; [cbn; intuition|].
  intros [H1 H2]. destruct (str_leb l h) eqn:E.
  - apply str_leb_spec in E. cbn [ordered]. split; [|auto].
    intros x [<-|Hx]; [auto|]. eapply byte_le_trans; eauto.
  - cbn [ordered]. split; [|auto]. intros x Hx.
    apply (Permutation_in _ (insert_perm l t)) in Hx. destruct Hx as [<-|Hx]; [|auto].
    destruct (byte_le_total h l) as [L|L]; [auto|]. apply str_leb_spec in L. congruence.
Qed.
Lemma sort_ordered ls : ordered byte_le (sort_chunk ls).
Proof. induction ls; cbn; [exact I|]. now apply insert_ordered. Qed.

Lemma make_chunks_perm n lines input :
  Permutation (concat (make_chunks n lines input)) (lines ++ filter nonempty input).
Proof.
  revert lines; induction input as [|l input IH]; intro lines; cbn [make_chunks].
  - destruct lines as [|a lines]; [reflexivity|].
    cbn [concat filter]. rewrite !app_nil_r. apply sort_perm.
  - cbn [filter]. set (lines' := if nonempty l then lines ++ [l] else lines).
    assert (E : lines ++ (if nonempty l then l :: filter nonempty input else filter nonempty input)
                = lines' ++ filter nonempty input).
    { subst lines'. destruct (nonempty l); [now rewrite <- app_assoc|reflexivity]. }
    rewrite E. destruct (n <=? length lines').
    + cbn [concat]. rewrite IH. cbn [app]. now rewrite sort_perm.
    + apply IH.
Qed.

Lemma make_chunks_ordered n lines input : Forall (ordered byte_le) (make_chunks n lines input).
Proof.
  revert lines; induction input as [|l input IH]; intro lines; cbn [make_chunks].
  - destruct lines; repeat constructor. apply sort_ordered.
  - destruct (n <=? _); [constructor; [apply sort_ordered|]|]; apply IH.
Qed.

Definition hcontent (h : heap) : list str := concat (map (fun e => fst e :: snd e) h).

Lemma open_chunks_content opens i cs : (forall j, opens j = true) -> hcontent (open_chunks opens i cs) = concat cs.
Proof.
  intro H. revert i; induction cs as [|c cs IH]; intro i; [reflexivity|]. cbn [open_chunks]. rewrite H.
  destruct c as [|l t]; cbn [concat app]; [apply IH|].
  unfold hcontent in *. cbn [map concat fst snd app]. now rewrite IH.
Qed.
Lemma open_chunks_ordered opens i cs : Forall (ordered byte_le) cs ->
  Forall (fun e => ordered byte_le (fst e :: snd e)) (open_chunks opens i cs).
Proof.
  intro H; revert i; induction H as [|c cs Hc _ IH]; intro i; cbn [open_chunks]; [constructor|].
  destruct (opens i); [|constructor]. destruct c; [auto|]. constructor; auto.
Qed.

Section M.
Context (pick : heap -> option ((str * list str) * heap)).
Hypothesis Hpick : min_queue pick.

(** all popped lines *)
Fixpoint popped (fuel : nat) (h : heap) : list str :=
  match fuel with
  | O => []
  | S fuel' =>
    match pick h with
    | None => []
    | Some ((line, stream), h') =>
      line :: popped fuel' (match stream with [] => h' | l :: t => (l, t) :: h' end)
    end
  end.

Fixpoint dedup (dd first : bool) (prev : str) (ls : list str) : list str :=
  match ls with
  | [] => []
  | l :: t => if first || (negb (dd && seq_eqb l prev) && nonempty l)
              then l :: dedup dd false l t else dedup dd first prev t
  end.

Lemma merge_dedup fuel dd first prev h :
  merge_loop pick fuel dd first prev h = dedup dd first prev (popped fuel h).
Proof.
  revert first prev h; induction fuel as [|fuel IH]; intros; [reflexivity|].
  cbn [merge_loop popped]. destruct (pick h) as [[[l s] h']|]; [|reflexivity].
  cbn [dedup]. destruct (first || _); now rewrite IH.
Qed.

Lemma hcontent_perm h h' : Permutation h h' -> Permutation (hcontent h) (hcontent h').
Proof.
  intro H. unfold hcontent. rewrite <- !flat_map_concat_map. now apply Permutation_flat_map.
Qed.

Lemma popped_spec fuel h : Forall (fun e => ordered byte_le (fst e :: snd e)) h ->
  length (hcontent h) <= fuel ->
  Permutation (popped fuel h) (hcontent h) /\ ordered byte_le (popped fuel h).
Proof.
  revert h; induction fuel as [|fuel IH]; intros h Ho Hf.
  - destruct (hcontent h) eqn:E; [|cbn in Hf; lia]. cbn. auto.
  - cbn [popped]. destruct h as [|e0 h0].
    + rewrite (proj1 Hpick). cbn. auto.
    + destruct (proj2 Hpick (e0 :: h0) ltac:(discriminate)) as ([l s] & h' & E & P & M).
      rewrite E. set (h := e0 :: h0) in *. clearbody h. cbn [fst snd] in *.
      pose proof (hcontent_perm _ _ P) as PC.
      assert (Ho' : Forall (fun e => ordered byte_le (fst e :: snd e)) ((l, s) :: h')).
      { rewrite Forall_forall in Ho |- *. intros e He. apply Ho. eapply Permutation_in; [symmetry; exact P|exact He]. }
      match goal with |- context [popped fuel ?y] => set (h2 := y) end.
      assert (C : hcontent ((l, s) :: h') = l :: hcontent h2).
      { subst h2. destruct s; reflexivity. }
      rewrite C in PC.
      assert (O2 : Forall (fun e => ordered byte_le (fst e :: snd e)) h2).
      { inversion Ho' as [|? ? Hl Hh]; subst. subst h2. destruct s as [|x t]; [exact Hh|].
        constructor; [|exact Hh]. cbn [fst snd] in *. apply Hl. }
      pose proof (Permutation_length PC) as PL. cbn [length] in PL.
      destruct (IH h2 O2 ltac:(lia)) as [P2 S2].
      split; [rewrite P2; now rewrite PC|].
      cbn [ordered]. split; [|exact S2]. intros x Hx. apply (Permutation_in _ P2) in Hx.
      (* x is in the content of h2 *)
      assert (L : forall e y, In e ((l, s) :: h') -> In y (fst e :: snd e) -> byte_le l y).
      { intros e y He Hy. rewrite Forall_forall in Ho'. specialize (Ho' e He).
        assert (byte_le l (fst e)). { destruct He as [<-|He]; [now left|now apply M]. }
        destruct Hy as [<-|Hy]; [assumption|]. eapply byte_le_trans; [eassumption|]. now apply Ho'. }
      assert (Hx' : In x (hcontent ((l, s) :: h'))) by (rewrite C; now right).
      unfold hcontent in Hx'. rewrite <- flat_map_concat_map, in_flat_map in Hx'.
      destruct Hx' as (e & He & Hy). eauto.
Qed.

Lemma dedup_off first prev ls : Forall (fun l => nonempty l = true) ls -> dedup false first prev ls = ls.
Proof.
  intro H; revert first prev; induction H as [|l ls Hl _ IH]; intros; [reflexivity|].
  cbn [dedup]. rewrite Hl. rewrite orb_true_r, IH. reflexivity.
Qed.

Lemma dedup_on_sub first prev ls x : In x (dedup true first prev ls) -> In x ls.
Proof.
  revert first prev; induction ls as [|l ls IH]; intros first prev; cbn [dedup]; [auto|].
  destruct (first || _); [intros [<-|H]; [now left|right; eauto]|right; eauto].
Qed.

Lemma dedup_on_ordered first prev ls : Forall (fun l => nonempty l = true) ls -> ordered byte_le ls ->
  (first = false -> forall x, In x ls -> byte_le prev x) ->
  ordered byte_lt (dedup true first prev ls) /\
  (first = false -> forall x, In x (dedup true first prev ls) -> byte_lt prev x) /\
  (forall x, In x ls -> In x (dedup true first prev ls) \/ (first = false /\ x = prev)).
Proof.
  intro H; revert first prev; induction H as [|l ls Hl _ IH]; intros first prev Ho Hp.
  - cbn. intuition.
  - destruct Ho as [Ho1 Ho2]. cbn [dedup]. rewrite Hl, andb_true_r, andb_true_l.
    destruct (IH false l Ho2 (fun _ => Ho1)) as (I1 & I2 & I3). specialize (I2 eq_refl).
    destruct first; cbn [orb].
    + split; [split; [exact I2|exact I1]|]. split; [discriminate|].
      intros x [<-|Hx]; [left; now left|]. destruct (I3 x Hx) as [?|[_ ->]]; left; [now right|now left].
    + specialize (Hp eq_refl). destruct (seq_eqb_spec l prev) as [->|N]; cbn [negb].
      * destruct (IH false prev Ho2 (fun _ => Ho1)) as (J1 & J2 & J3).
        split; [exact J1|]. split; [exact J2|].
        intros x [<-|Hx]; [right; auto|auto].
      * assert (L : byte_lt prev l). { destruct (Hp l (or_introl eq_refl)) as [E|L]; [congruence|exact L]. }
        split; [split; [exact I2|exact I1]|]. split.
        { intros _ x [<-|Hx]; [exact L|]. eapply byte_lt_trans; [exact L|auto]. }
        { intros x [<-|Hx]; [left; now left|]. destruct (I3 x Hx) as [?|[_ ->]]; left; [now right|now left]. }
Qed.

Lemma filter_nonempty_Forall ls : Forall (fun l => nonempty l = true) (filter nonempty ls).
Proof. apply Forall_forall. intros x Hx. now apply filter_In in Hx. Qed.

Definition out_lines opens content (hh : bool) n dd : list str :=
  let input := if hh then tl (lines_of content) else lines_of content in
  let h := open_chunks opens 0 (make_chunks n [] input) in
  merge_loop pick (heap_size h) dd true [] h.

Lemma out_lines_spec opens content (hh : bool) n dd : (forall i, opens i = true) ->
  let input := if (hh : bool) then tl (lines_of content) else lines_of content in
  let R := out_lines opens content hh n dd in
  ordered byte_le R /\
  (dd = false -> Permutation R (filter nonempty input)) /\
  (dd = true -> ordered byte_lt R /\ forall l, In l R <-> In l input /\ l <> []).
Proof.
  intro Hop. cbv zeta. unfold out_lines. set (input := if hh then tl (lines_of content) else lines_of content).
  set (h := open_chunks opens 0 (make_chunks n [] input)).
  rewrite merge_dedup.
  assert (HC : Permutation (hcontent h) (filter nonempty input)).
  { subst h. rewrite open_chunks_content by auto. apply make_chunks_perm. }
  destruct (popped_spec (heap_size h) h) as [P O].
  { apply open_chunks_ordered, make_chunks_ordered. }
  { apply Nat.le_refl. }
  set (m := popped (heap_size h) h) in *. clearbody m.
  assert (Pm : Permutation m (filter nonempty input)) by now rewrite P.
  assert (Nm : Forall (fun l => nonempty l = true) m).
  { apply Forall_forall. intros x Hx. apply (Permutation_in _ Pm) in Hx. now apply filter_In in Hx. }
  destruct dd.
  - destruct (dedup_on_ordered true [] m Nm O) as (D1 & _ & D3); [discriminate|].
    split; [|split; [discriminate|]].
    + clear - D1. induction (dedup true true [] m) as [|l t IH]; [exact I|]. destruct D1. split; [|auto].
      intros x Hx. right. auto.
    + intros _. split; [exact D1|]. intro l. split.
      * intro Hl. apply dedup_on_sub in Hl. apply (Permutation_in _ Pm) in Hl. apply filter_In in Hl as [Hi Hn].
        split; [exact Hi|]. now destruct l.
      * intros [Hi Hn]. assert (Hf : In l m).
        { eapply Permutation_in; [symmetry; exact Pm|]. apply filter_In. split; [exact Hi|]. now destruct l. }
        destruct (D3 l Hf) as [?|[? _]]; [assumption|discriminate].
  - rewrite dedup_off by auto. split; [exact O|]. split; [auto|discriminate].
Qed.

Lemma out_no_nl opens content (hh : bool) n dd : (forall i, opens i = true) ->
  Forall (fun l => ~ In NL l) (out_lines opens content hh n dd).
Proof.
  intro Hop. destruct (out_lines_spec opens content hh n dd Hop) as (_ & H1 & H2).
  pose proof (lines_of_no_nl content) as N. rewrite Forall_forall in N.
  apply Forall_forall. intros x Hx. apply N.
  assert (Hi : In x (if hh then tl (lines_of content) else lines_of content)).
  { destruct dd.
    - apply (proj2 (H2 eq_refl)) in Hx. apply Hx.
    - apply (Permutation_in _ (H1 eq_refl)) in Hx. now apply filter_In in Hx. }
  destruct hh; [|exact Hi]. destruct (lines_of content); [exact Hi|now right].
Qed.

Lemma sort_file_spec opens content (hh : bool) n dd : (forall i, opens i = true) ->
  let input := if hh then tl (lines_of content) else lines_of content in
  exists R, fst (sort_file pick opens content hh n dd) = true /\
    lines_of (snd (sort_file pick opens content hh n dd)) = (if hh then [hd [] (lines_of content)] else []) ++ R /\
    ordered byte_le R /\
    (dd = false -> Permutation R (filter nonempty input)) /\
    (dd = true -> ordered byte_lt R /\ forall l, In l R <-> In l input /\ l <> []).
Proof.
  intro Hop. cbv zeta. exists (out_lines opens content hh n dd).
  split; [reflexivity|]. split; [|apply out_lines_spec; exact Hop].
  unfold sort_file. cbn [snd]. fold (out_lines opens content hh n dd).
  rewrite lines_of_write; [destruct hh; reflexivity|].
  apply Forall_app. split; [|now apply out_no_nl].
  destruct hh; constructor; [|constructor].
  pose proof (lines_of_no_nl content) as N. destruct (lines_of content); [intros []|]. now inversion N.
Qed.
End M.

(** uniqueness of the result *)
Lemma ordered_perm_unique a b : ordered byte_le a -> ordered byte_le b -> Permutation a b -> a = b.
Proof.
  revert b; induction a as [|x a IH]; intros b Ha Hb P.
  - now apply Permutation_nil in P.
  - destruct b as [|y b]; [now apply Permutation_sym, Permutation_nil in P|].
    destruct Ha as [Ha1 Ha2], Hb as [Hb1 Hb2].
    assert (x = y).
    { apply byte_le_antisym.
      - assert (In y (x :: a)) by (eapply Permutation_in; [symmetry; exact P|now left]).
        destruct H as [->|H]; [now left|auto].
      - assert (In x (y :: b)) by (eapply Permutation_in; [exact P|now left]).
        destruct H as [->|H]; [now left|auto]. }
    subst y. f_equal. apply IH; auto. eapply Permutation_cons_inv; eauto.
Qed.

Lemma ordered_lt_nodup a : ordered byte_lt a -> NoDup a.
Proof.
  induction a as [|x a IH]; intro H; constructor; destruct H as [H1 H2]; auto.
  intro Hx. apply H1 in Hx. now apply byte_lt_irrefl in Hx.
Qed.
Lemma ordered_lt_le a : ordered byte_lt a -> ordered byte_le a.
Proof. induction a as [|x a IH]; [auto|]. intros [H1 H2]. split; auto. intros y Hy. right. auto. Qed.
Lemma ordered_lt_unique a b : ordered byte_lt a -> ordered byte_lt b -> (forall x, In x a <-> In x b) -> a = b.
Proof.
  intros Ha Hb H. apply ordered_perm_unique; auto using ordered_lt_le.
  apply NoDup_Permutation; auto using ordered_lt_nodup.
Qed.

Lemma sort_chunk_independent pick1 pick2 opens content (hh : bool) n1 n2 dd :
  min_queue pick1 -> min_queue pick2 -> (forall i, opens i = true) ->
  sort_file pick1 opens content hh n1 dd = sort_file pick2 opens content hh n2 dd.
Proof.
  intros H1 H2 Hop. unfold sort_file.
  fold (out_lines pick1 opens content hh n1 dd). fold (out_lines pick2 opens content hh n2 dd).
  assert (E : out_lines pick1 opens content hh n1 dd = out_lines pick2 opens content hh n2 dd); [|now rewrite E].
  destruct (out_lines_spec pick1 H1 opens content hh n1 dd Hop) as (O1 & P1 & Q1).
  destruct (out_lines_spec pick2 H2 opens content hh n2 dd Hop) as (O2 & P2 & Q2).
  destruct dd.
  - destruct (Q1 eq_refl) as [L1 I1]. destruct (Q2 eq_refl) as [L2 I2].
    apply ordered_lt_unique; auto. intro x. now rewrite I1, I2.
  - apply ordered_perm_unique; auto. rewrite (P1 eq_refl), (P2 eq_refl). reflexivity.
Qed.

(** a concrete queue *)
Fixpoint pick_min (h : heap) : option ((str * list str) * heap) :=
  match h with
  | [] => None
  | e :: t => match pick_min t with
              | None => Some (e, [])
              | Some (e', t') => if str_leb (fst e) (fst e') then Some (e, t) else Some (e', e :: t')
              end
  end.
Lemma pick_min_queue : min_queue pick_min.
Proof.
  split; [reflexivity|]. intro h. induction h as [|e t IH]; intro Hn; [congruence|].
  cbn [pick_min]. destruct t as [|e2 t].
  - exists e, []. cbn. repeat split; auto. intros y [].
  - destruct (IH ltac:(discriminate)) as (e' & t' & E & P & M). set (tt := e2 :: t) in *. clearbody tt.
    rewrite E. destruct (str_leb (fst e) (fst e')) eqn:L.
    + exists e, tt. repeat split; auto. intros y Hy. apply str_leb_spec in L.
      apply (Permutation_in _ P) in Hy. destruct Hy as [<-|Hy]; [exact L|]. eapply byte_le_trans; eauto.
    + exists e', (e :: t'). repeat split.
      * rewrite P. constructor.
      * intros y [<-|Hy]; [|auto]. destruct (byte_le_total (fst e') (fst e)) as [?|L']; [auto|].
        apply str_leb_spec in L'. congruence.
Qed.
