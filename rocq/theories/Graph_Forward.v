From Coq Require Import List Arith Bool Lia.
From Verif Require Import Outcome Graph_Model Graph_Spec.
Import ListNotations.

Lemma set_at_same : forall {A} (f : nat -> A) i x, set_at f i x i = x.
Proof. intros. unfold set_at. now rewrite Nat.eqb_refl. Qed.
Lemma set_at_other : forall {A} (f : nat -> A) i x j, j <> i -> set_at f i x j = f j.
Proof. intros A f i x j H. unfold set_at. destruct (Nat.eqb_spec j i); [contradiction|reflexivity]. Qed.
Lemma clear_all_in : forall {A} l (f : nat -> option A) c, In c l -> clear_all f l c = None.
Proof.
  intros A l. unfold clear_all. induction l as [|x l IH]; intros f c H; [destruct H|]. cbn [fold_left].
  destruct (in_dec Nat.eq_dec c l) as [I|N]; [now apply IH|]. destruct H as [->|H]; [|contradiction].
  clear IH. assert (G : forall l (f : nat -> option A), ~ In c l -> fold_left (fun f c => set_at f c None) l f c = f c).
  { clear. intros l. induction l as [|y l IH]; intros f N; [reflexivity|]. cbn [fold_left]. rewrite IH by (intros I; apply N; now right).
    apply set_at_other. intros ->. apply N. now left. }
  rewrite G by exact N. apply set_at_same.
Qed.
Lemma clear_all_out : forall {A} l (f : nat -> option A) c, ~ In c l -> clear_all f l c = f c.
Proof.
  intros A l. unfold clear_all. induction l as [|y l IH]; intros f c N; [reflexivity|]. cbn [fold_left]. rewrite IH by (intros I; apply N; now right).
  apply set_at_other. intros ->. apply N. now left.
Qed.
Lemma all_some_all : forall {A B} (f : A -> option B) (h : A -> B) l, (forall c, In c l -> f c = Some (h c)) -> all_some (map f l) = Some (map h l).
Proof.
  intros A B f h l. induction l as [|x l IH]; intros H; [reflexivity|]. cbn [map all_some]. rewrite H by now left. rewrite IH by (intros c Hc; apply H; now right). reflexivity.
Qed.
Lemma all_some_none : forall {A B} (f : A -> option B) l c, In c l -> f c = None -> all_some (map f l) = None.
Proof.
  intros A B f l c. induction l as [|x l IH]; intros H E; [destruct H|]. cbn [map all_some]. destruct H as [->|H]; [now rewrite E|].
  destruct (f x); [|reflexivity]. now rewrite IH.
Qed.
Lemma in_outs : forall g v c, In c (outs g v) <-> conn g c /\ from g c = v.
Proof. intros g v c. unfold outs, conn. rewrite filter_In, in_seq, Nat.eqb_eq. intuition lia. Qed.
Lemma in_ins : forall g v c, In c (ins g v) <-> conn g c /\ to g c = v.
Proof. intros g v c. unfold ins, conn. rewrite filter_In, in_seq, Nat.eqb_eq. intuition lia. Qed.
Lemma outs_NoDup : forall g v, NoDup (outs g v).
Proof. intros. apply NoDup_filter, seq_NoDup. Qed.
Lemma ins_NoDup : forall g v, NoDup (ins g v).
Proof. intros. apply NoDup_filter, seq_NoDup. Qed.
Lemma ins_ne : forall g c, conn g c -> ins g (to g c) <> [].
Proof. intros g c H E. assert (I : In c (ins g (to g c))) by (apply in_ins; now split). rewrite E in I. destruct I. Qed.
Lemma before_app : forall {A} (l m : list A) a b, before l a b -> before (l ++ m) a b.
Proof. intros A l m a b (l1 & l2 & l3 & ->). exists l1, l2, (l3 ++ m). rewrite <- !app_assoc. cbn [app]. rewrite <- app_assoc. reflexivity. Qed.
Lemma before_last : forall {A} (l : list A) a b, In a l -> before (l ++ [b]) a b.
Proof. intros A l a b H. apply in_split in H as (l1 & l2 & ->). exists l1, l2, []. rewrite <- app_assoc. reflexivity. Qed.

Section Forward.
Context {T : Type} (g : graph) (layer : nat -> list T -> outcome T) (val : nat -> T) (rank : nat -> nat) (top : nat) (base : list nat).
Hypothesis Hrank : forall c, conn g c -> rank (from g c) < rank (to g c).
Hypothesis Htop : forall v, node g v -> rank v <= top.
Hypothesis Hnode : forall c, conn g c -> node g (from g c).
Hypothesis Hval : forall v, ins g v <> [] -> layer v (map (fun c => val (from g c)) (ins g v)) = Ok (val v).

(** [P]: the connections that were given a tensor so far; [L]: the nodes that computed. *)
Definition complete (P : nat -> bool) (u : nat) : bool := forallb P (ins g u).
Record inv (P : nat -> bool) (L : list nat) (st : fstate T) : Prop := {
  i_from : forall c, conn g c -> P c = true -> In (from g c) L;
  i_ins : forall u c, In u L -> In c (ins g u) -> P c = true;
  i_val : forall c, conn g c -> P c = true -> complete P (to g c) = false -> next_input st c = Some (val (from g c));
  i_none : forall c, conn g c -> P c = false -> next_input st c = None;
  i_nodup : NoDup L;
  i_order : forall c, conn g c -> In (to g c) L -> before L (from g c) (to g c);
  i_node : forall v, In v L -> node g v;
  i_last : forall v, In v L -> outs g v = [] -> In v (outputs g) -> lastOutput st v = Some (val v);
  i_called : called st = base ++ L }.
Definition all_fired (P : nat -> bool) (L : list nat) (except : option nat) : Prop :=
  forall u, Some u <> except -> ins g u <> [] -> complete P u = true -> In u L.

Record sent (P : nat -> bool) (L : list nat) (st : fstate T) (P' : nat -> bool) (M : list nat) (st' : fstate T) : Prop := {
  s_inv : inv P' (L ++ M) st';
  s_fired : all_fired P' (L ++ M) None;
  s_mono : forall c, P c = true -> P' c = true;
  s_outs : forall u c, In u M -> In c (outs g u) -> P' c = true;
  s_clear : forall u c, In u M -> In c (ins g u) -> next_input st' c = None;
  s_frame : forall c, conn g c -> In (to g c) L -> next_input st' c = next_input st c;
  s_ins : forall u, In u M -> ins g u <> [] }.

Lemma complete_mono : forall P P' u, (forall c, P c = true -> P' c = true) -> complete P u = true -> complete P' u = true.
Proof. intros P P' u H. unfold complete. rewrite !forallb_forall. intros G c Hc. apply H, G, Hc. Qed.

Lemma send_ok : forall exec v, 
  (forall P L st u, rank v < rank u -> node g u -> inv P L st -> all_fired P L (Some u) -> ~ In u L -> complete P u = true -> ins g u <> [] ->
     exists P' M st', exec u (map (fun c => val (from g c)) (ins g u)) st = (st', Fine) /\
       inv P' (L ++ u :: M) st' /\ all_fired P' (L ++ u :: M) None /\ (forall c, P c = true -> P' c = true) /\
       (forall w c, In w (u :: M) -> In c (outs g w) -> P' c = true) /\ (forall w c, In w M -> In c (ins g w) -> next_input st' c = None) /\
       (forall c, conn g c -> In (to g c) L \/ to g c = u -> next_input st' c = next_input st c) /\
       (forall c, conn g c -> P' c = true -> P c = true \/ In (from g c) (u :: M)) /\
       (forall w, In w M -> ins g w <> [])) ->
  forall cs P L st, NoDup cs -> (forall c, In c cs -> conn g c /\ from g c = v /\ P c = false) -> inv P L st -> all_fired P L None -> In v L ->
  exists P' M st', send g (forward_from_connection g exec) (val v) cs st = (st', Fine) /\ sent P L st P' M st' /\ (forall c, In c cs -> P' c = true) /\
    (forall c, conn g c -> P' c = true -> P c = true \/ In c cs \/ In (from g c) M).
Proof.
  intros exec v Hexec cs. induction cs as [|c cs IH]; intros P L st Hnd Hcs Hi Hf Hv.
  - exists P, [], st. split; [reflexivity|]. split; [|split; [intros c []|intros c _ H; now left]]. constructor; [now rewrite app_nil_r|now rewrite app_nil_r|auto|intros ? ? []|intros ? ? []|reflexivity|intros ? []].
  - cbn [send]. set (st1 := {| next_input := set_at (next_input st) c (Some (val v)); lastOutput := lastOutput st; called := called st |}).
    destruct (Hcs c) as (Cc & Cf & Cp); [now left|]. set (u := to g c). apply NoDup_cons_iff in Hnd as [Hc Hnd'].
    set (P1 := set_at P c true).
    assert (M1 : forall c', P c' = true -> P1 c' = true). { intros c' H. subst P1. destruct (Nat.eq_dec c' c) as [->|N]; [apply set_at_same|]. rewrite set_at_other by exact N. exact H. }
    assert (Hu : ~ In u L). { intros G. assert (X : P c = true) by (apply (i_ins _ _ _ Hi u); [exact G|]; apply in_ins; now split). congruence. }
    assert (Iu : ins g u <> []) by (apply ins_ne; exact Cc).
    assert (Hi1 : inv P1 L st1).
    { constructor.
      - intros c' Cc' H. destruct (Nat.eq_dec c' c) as [->|N]; [rewrite Cf; exact Hv|]. subst P1. rewrite set_at_other in H by exact N. now apply (i_from _ _ _ Hi).
      - intros w c' Hw Hc'. apply M1. now apply (i_ins _ _ _ Hi w).
      - intros c' Cc' H G. cbn [next_input st1]. destruct (Nat.eq_dec c' c) as [->|N]; [rewrite Cf; apply set_at_same|]. rewrite set_at_other by exact N.
        apply (i_val _ _ _ Hi); [exact Cc'|subst P1; rewrite set_at_other in H by exact N; exact H|].
        destruct (complete P (to g c')) eqn:E; [|reflexivity]. apply (complete_mono _ _ _ M1) in E. congruence.
      - intros c' Cc' H. cbn [next_input st1]. destruct (Nat.eq_dec c' c) as [->|N]; [subst P1; rewrite set_at_same in H; discriminate|].
        rewrite set_at_other by exact N. apply (i_none _ _ _ Hi); [exact Cc'|]. subst P1. rewrite set_at_other in H by exact N. exact H.
      - apply (i_nodup _ _ _ Hi).
      - apply (i_order _ _ _ Hi).
      - apply (i_node _ _ _ Hi).
      - apply (i_last _ _ _ Hi).
      - apply (i_called _ _ _ Hi). }
    assert (Hf1 : all_fired P1 L (Some u)).
    { intros w Nw Iw Cw. apply Hf; [discriminate|exact Iw|]. unfold complete in *. rewrite forallb_forall in *. intros c' Hc'. specialize (Cw c' Hc').
      subst P1. rewrite set_at_other in Cw; [exact Cw|]. intros ->. apply in_ins in Hc' as [_ E]. apply Nw. now rewrite <- E. }
    assert (Step : exists P2 M2 st2, forward_from_connection g exec u st1 = (st2, Fine) /\ sent P L st P2 M2 st2 /\ (forall c', P1 c' = true -> P2 c' = true) /\
       (forall c', conn g c' -> P2 c' = true -> P c' = true \/ c' = c \/ In (from g c') M2)).
    { unfold forward_from_connection. destruct (complete P1 u) eqn:Ec.
      - assert (Ea : all_some (map (next_input st1) (ins g u)) = Some (map (fun c => val (from g c)) (ins g u))).
        { apply all_some_all. intros c' Hc'. destruct (Nat.eq_dec c' c) as [->|N]; [cbn [next_input st1]; rewrite set_at_same, Cf; reflexivity|].
          cbn [next_input st1]. rewrite set_at_other by exact N. apply in_ins in Hc' as [Cc' Eu]. apply (i_val _ _ _ Hi); [exact Cc'| |].
          - unfold complete in Ec. rewrite forallb_forall in Ec. specialize (Ec c'). subst P1. rewrite set_at_other in Ec by exact N. apply Ec. apply in_ins. now split.
          - rewrite Eu. destruct (complete P u) eqn:E; [|reflexivity]. exfalso. apply Hu. now apply Hf. }
        rewrite Ea. destruct (Hexec P1 L st1 u) as (P2 & M2 & st2 & E2 & I2 & F2 & Mo2 & O2 & C2 & Fr2 & New2 & Is2); try assumption.
        { rewrite <- Cf. now apply Hrank. }
        { right. exact Iu. }
        rewrite E2. exists P2, (u :: M2). eexists. split; [reflexivity|].
        assert (Cu : forall c', In c' (ins g u) -> P2 c' = true).
        { intros c' Hc'. apply (i_ins _ _ _ I2 u); [|exact Hc']. apply in_or_app. right. now left. }
        assert (Nu : ~ In u M2).
        { pose proof (i_nodup _ _ _ I2) as N2. apply NoDup_remove_2 in N2. intros G. apply N2. apply in_or_app. now right. }
        split; [|split; [exact Mo2|]].
        + constructor.
          * destruct I2 as [A1 A2 A3 A4 A5 A6 A7 A8 A9]. constructor; cbn [next_input lastOutput called]; try assumption.
            { intros c' Cc' Pc' Co. rewrite clear_all_out; [now apply A3|]. intros G. apply in_ins in G as [_ G]. rewrite G in Co.
              assert (X : complete P2 u = true) by (unfold complete; apply forallb_forall; exact Cu). congruence. }
            { intros c' Cc' Pc'. destruct (in_dec Nat.eq_dec c' (ins g u)) as [G|G]; [now apply clear_all_in|]. rewrite clear_all_out by exact G. now apply A4. }
          * exact F2.
          * intros c' H. apply Mo2, M1, H.
          * exact O2.
          * intros w c' Hw Hc'. cbn [next_input]. destruct Hw as [<-|Hw]; [now apply clear_all_in|]. rewrite clear_all_out; [now apply (C2 w)|].
            intros G. apply in_ins in G as [_ G]. apply in_ins in Hc' as [_ G']. apply Nu. rewrite <- G, G'. exact Hw.
          * intros c' Cc' Hc'. cbn [next_input]. rewrite clear_all_out.
            2:{ intros G. apply in_ins in G as [_ G]. apply Hu. now rewrite <- G. }
            rewrite Fr2 by (try assumption; now left). cbn [next_input st1]. apply set_at_other. intros ->. apply Hu. exact Hc'.
          * intros w [<-|Hw]; [exact Iu|now apply Is2].
        + intros c' Cc' H. destruct (New2 c' Cc' H) as [G|G]; [|right; right; exact G]. subst P1.
          destruct (Nat.eq_dec c' c) as [->|N]; [right; now left|]. rewrite set_at_other in G by exact N. now left.
      - assert (Ea : all_some (map (next_input st1) (ins g u)) = None).
        { unfold complete in Ec. destruct (forallb P1 (ins g u)) eqn:E; [discriminate|]. clear Ec.
          assert (X : exists c', In c' (ins g u) /\ P1 c' = false).
          { clear - E. induction (ins g u) as [|x l IH]; [discriminate|]. cbn in E. destruct (P1 x) eqn:Ex; [|exists x; split; [now left|exact Ex]].
            destruct IH as (y & Hy & Ey); [exact E|]. exists y. split; [now right|exact Ey]. }
          destruct X as (c' & Hc' & Ep). apply (all_some_none _ _ c' Hc'). apply (i_none _ _ _ Hi1); [now apply in_ins in Hc'|exact Ep]. }
        rewrite Ea. exists P1, [], st1. split; [reflexivity|]. split; [|split; [auto|]].
        + constructor; try (rewrite app_nil_r).
          * exact Hi1.
          * intros w Nw Iw Cw. apply Hf1; try assumption. intros X. injection X as ->. congruence.
          * exact M1.
          * intros w c' [].
          * intros w c' [].
          * intros c' Cc' Hc'. cbn [next_input st1]. apply set_at_other. intros ->. apply Hu. exact Hc'.
          * intros w [].
        + intros c' Cc' H. subst P1. destruct (Nat.eq_dec c' c) as [->|N]; [right; now left|]. rewrite set_at_other in H by exact N. now left. }
    destruct Step as (P2 & M2 & st2 & E2 & S2 & Mo2 & New2). fold u. rewrite E2.
    pose proof (i_nodup _ _ _ (s_inv _ _ _ _ _ _ S2)) as Nd2.
    assert (Nv : ~ In v M2). { intros G. apply in_split in Hv as (a & b & ->). rewrite <- app_assoc in Nd2. cbn [app] in Nd2. apply NoDup_remove_2 in Nd2. apply Nd2. apply in_or_app. right. apply in_or_app. now right. }
    destruct (IH P2 (L ++ M2) st2) as (P3 & M3 & st3 & E3 & S3 & A3 & New3).
    { exact Hnd'. }
    { intros c' Hc'. destruct (Hcs c') as (X1 & X2 & X3); [now right|]. split; [exact X1|]. split; [exact X2|]. destruct (P2 c') eqn:E; [|reflexivity]. exfalso.
      destruct (New2 c' X1 E) as [G|[G|G]]; [congruence|subst c'; contradiction|]. rewrite X2 in G. contradiction. }
    { apply (s_inv _ _ _ _ _ _ S2). }
    { apply (s_fired _ _ _ _ _ _ S2). }
    { apply in_or_app. now left. }
    rewrite E3. exists P3, (M2 ++ M3), st3. split; [reflexivity|]. split; [|split].
    + constructor; try rewrite app_assoc.
      * apply (s_inv _ _ _ _ _ _ S3).
      * apply (s_fired _ _ _ _ _ _ S3).
      * intros c' H. apply (s_mono _ _ _ _ _ _ S3), (s_mono _ _ _ _ _ _ S2), H.
      * intros w c' Hw Hc'. apply in_app_or in Hw as [Hw|Hw]; [|now apply (s_outs _ _ _ _ _ _ S3 w)]. apply (s_mono _ _ _ _ _ _ S3). now apply (s_outs _ _ _ _ _ _ S2 w).
      * intros w c' Hw Hc'. apply in_app_or in Hw as [Hw|Hw]; [|now apply (s_clear _ _ _ _ _ _ S3 w)].
        apply in_ins in Hc' as Hc2. destruct Hc2 as [Cc' Et]. rewrite (s_frame _ _ _ _ _ _ S3); [now apply (s_clear _ _ _ _ _ _ S2 w)|exact Cc'|]. rewrite Et. apply in_or_app. now right.
      * intros c' Cc' Hc'. rewrite (s_frame _ _ _ _ _ _ S3); [|exact Cc'|apply in_or_app; now left]. now apply (s_frame _ _ _ _ _ _ S2).
      * intros w Hw. apply in_app_or in Hw as [Hw|Hw]; [now apply (s_ins _ _ _ _ _ _ S2)|now apply (s_ins _ _ _ _ _ _ S3)].
    + intros c' [<-|Hc']; [|now apply A3]. apply (s_mono _ _ _ _ _ _ S3), Mo2. subst P1. apply set_at_same.
    + intros c' Cc' H. destruct (New3 c' Cc' H) as [G|[G|G]].
      * destruct (New2 c' Cc' G) as [X|[X|X]]; [now left|right; left; left; congruence|right; right; apply in_or_app; now left].
      * right. left. now right.
      * right. right. apply in_or_app. now right.
Qed.

Lemma exec_ok : forall fuel v inputs P L st, node g v -> top - rank v < fuel -> inv P L st -> all_fired P L (Some v) -> ~ In v L -> complete P v = true ->
  layer v inputs = Ok (val v) ->
  exists P' M st', do_forward g layer fuel v inputs st = (st', Fine) /\
    inv P' (L ++ v :: M) st' /\ all_fired P' (L ++ v :: M) None /\ (forall c, P c = true -> P' c = true) /\
    (forall w c, In w (v :: M) -> In c (outs g w) -> P' c = true) /\ (forall w c, In w M -> In c (ins g w) -> next_input st' c = None) /\
    (forall c, conn g c -> In (to g c) L \/ to g c = v -> next_input st' c = next_input st c) /\
    (forall c, conn g c -> P' c = true -> P c = true \/ In (from g c) (v :: M)) /\
    (forall w, In w M -> ins g w <> []).
Proof.
  induction fuel as [|fuel IH]; intros v inputs P L st Nv Hfu Hi Hf Hv Hco Hl; [lia|]. cbn [do_forward]. rewrite Hl.
  assert (Cins : forall c, In c (ins g v) -> P c = true) by (apply forallb_forall; exact Hco).
  assert (Ord : forall c, conn g c -> In (to g c) (L ++ [v]) -> before (L ++ [v]) (from g c) (to g c)).
  { intros c Cc H. apply in_app_or in H as [H|[H|[]]]; [apply before_app; now apply (i_order _ _ _ Hi)|]. rewrite <- H. apply before_last.
    apply (i_from _ _ _ Hi); [exact Cc|]. apply Cins. apply in_ins. now split. }
  assert (Nd : NoDup (L ++ [v])).
  { pose proof (NoDup_rev (i_nodup _ _ _ Hi)) as X. rewrite <- (rev_involutive (L ++ [v])). apply NoDup_rev. rewrite rev_app_distr. cbn. constructor; [|exact X]. now rewrite <- in_rev. }
  assert (Nn : forall w, In w (L ++ [v]) -> node g w) by (intros w H; apply in_app_or in H as [H|[<-|[]]]; [now apply (i_node _ _ _ Hi)|exact Nv]).
  assert (Ins : forall w c, In w (L ++ [v]) -> In c (ins g w) -> P c = true) by (intros w c H Hc; apply in_app_or in H as [H|[<-|[]]]; [now apply (i_ins _ _ _ Hi w)|now apply Cins]).
  assert (Fr : forall c, conn g c -> P c = true -> In (from g c) (L ++ [v])) by (intros c Cc Pc; apply in_or_app; left; now apply (i_from _ _ _ Hi)).
  assert (AF : all_fired P (L ++ [v]) None).
  { intros u _ Iu Cu. apply in_or_app. destruct (Nat.eq_dec u v) as [->|N]; [right; now left|]. left. apply Hf; try assumption. congruence. }
  destruct (outs g v) as [|c0 cs0] eqn:Eo.
  - exists P, []. eexists. split; [reflexivity|]. split; [|split; [exact AF|split; [auto|split; [|split; [|split; [|split]]]]]].
    + constructor; cbn [next_input lastOutput called]; try assumption.
      * apply (i_val _ _ _ Hi).
      * apply (i_none _ _ _ Hi).
      * intros w Hw Ow Iw. apply in_app_or in Hw. destruct (Nat.eq_dec w v) as [->|N].
        { assert (X : existsb (Nat.eqb v) (outputs g) = true) by (apply existsb_exists; exists v; split; [exact Iw|apply Nat.eqb_refl]). rewrite X. apply set_at_same. }
        { destruct Hw as [Hw|[<-|[]]]; [|contradiction]. destruct (existsb (Nat.eqb v) (outputs g)); [rewrite set_at_other by exact N|]; now apply (i_last _ _ _ Hi). }
      * rewrite (i_called _ _ _ Hi). now rewrite <- app_assoc.
    + intros w c [<-|[]] Hc. rewrite Eo in Hc. destruct Hc.
    + intros w c [].
    + intros c Cc _. reflexivity.
    + intros c Cc H. now left.
    + intros w [].
  - rewrite <- Eo in *. set (st1 := {| next_input := next_input st; lastOutput := lastOutput st; called := called st ++ [v] |}).
    assert (Hi1 : inv P (L ++ [v]) st1).
    { constructor; cbn [next_input lastOutput called st1]; try assumption.
      - apply (i_val _ _ _ Hi).
      - apply (i_none _ _ _ Hi).
      - intros w Hw Ow Iw. apply in_app_or in Hw as [Hw|[<-|[]]]; [now apply (i_last _ _ _ Hi)|]. congruence.
      - rewrite (i_called _ _ _ Hi). now rewrite <- app_assoc. }
    destruct (send_ok (do_forward g layer fuel) v) with (cs := outs g v) (P := P) (L := L ++ [v]) (st := st1) as (P' & M & st' & E & S' & A & New).
    + intros P0 L0 st0 u Hr Nu I0 F0 N0 C0 Iu. apply IH; try assumption; [|now apply Hval]. pose proof (Htop u Nu). lia.
    + apply outs_NoDup.
    + intros c Hc. apply in_outs in Hc as [Cc Ec]. split; [exact Cc|]. split; [exact Ec|]. destruct (P c) eqn:Ep; [|reflexivity]. exfalso. apply Hv. rewrite <- Ec. now apply (i_from _ _ _ Hi).
    + exact Hi1.
    + exact AF.
    + apply in_or_app. right. now left.
    + exists P', M, st'. split; [exact E|]. destruct S' as [S1 S2 S3 S4 S5 S6 S7]. rewrite <- app_assoc in S1, S2. cbn [app] in S1, S2.
      split; [exact S1|]. split; [exact S2|]. split; [exact S3|]. split; [|split; [exact S5|split; [|split; [|exact S7]]]].
      * intros w c [<-|Hw] Hc; [now apply A|now apply (S4 w)].
      * intros c Cc H. rewrite S6; [reflexivity|exact Cc|]. apply in_or_app. destruct H as [H|H]; [now left|right; left; now symmetry].
      * intros c Cc H. destruct (New c Cc H) as [G|[G|G]]; [now left| |right; now right]. right. left. symmetry. apply in_outs in G. apply G.
Qed.

Lemma heads_ok : forall fuel hs P L st, (forall v, node g v -> top - rank v < fuel) ->
  NoDup (map fst hs) -> (forall h x, In (h, x) hs -> node g h /\ ins g h = [] /\ ~ In h L /\ layer h [x] = Ok (val h)) ->
  inv P L st -> all_fired P L None -> (forall u c, In u L -> In c (outs g u) -> P c = true) -> (forall u c, In u L -> In c (ins g u) -> next_input st c = None) ->
  exists P' M st', forward_heads g layer fuel hs st = (st', Fine) /\ inv P' (L ++ M) st' /\ all_fired P' (L ++ M) None /\
    (forall u c, In u (L ++ M) -> In c (outs g u) -> P' c = true) /\ (forall u c, In u (L ++ M) -> In c (ins g u) -> next_input st' c = None) /\
    (forall h, In h (map fst hs) -> In h (L ++ M)).
Proof.
  intros fuel hs. induction hs as [|[h x] hs IH]; intros P L st Hfu Hnd Hh Hi Hf Ho Hc.
  - exists P, [], st. rewrite app_nil_r. repeat (split; try assumption); try reflexivity. intros h [].
  - cbn [forward_heads]. destruct (Hh h x) as (Nh & Ih & Nl & El); [now left|].
    destruct (exec_ok fuel h [x] P L st) as (P1 & M1 & st1 & E1 & I1 & F1 & Mo1 & O1 & C1 & Fr1 & New1 & Is1); try assumption.
    { now apply Hfu. }
    { intros u Nu Iu Cu. now apply Hf. }
    { unfold complete. now rewrite Ih. }
    rewrite E1. cbn [map fst] in Hnd. apply NoDup_cons_iff in Hnd as [Hn Hnd].
    destruct (IH P1 (L ++ h :: M1) st1) as (P2 & M2 & st2 & E2 & I2 & F2 & O2 & C2 & H2); try assumption.
    { intros h' x' Hin. destruct (Hh h' x') as (Nh' & Ih' & Nl' & El'); [now right|]. repeat (split; try assumption).
      intros G. apply in_app_or in G as [G|[G|G]]; [contradiction| |].
      - subst h'. apply Hn. apply in_map_iff. now exists (h, x').
      - now apply Is1 in G. }
    { intros u c Hu Hoc. apply in_app_or in Hu as [Hu|Hu]; [|now apply (O1 u)]. apply Mo1. now apply (Ho u). }
    { intros u c Hu Hic. apply in_app_or in Hu as [Hu|[Hu|Hu]].
      - apply in_ins in Hic as X. destruct X as [Cc Et]. rewrite Fr1; [now apply (Hc u)|exact Cc|]. left. now rewrite Et.
      - subst u. rewrite Ih in Hic. destruct Hic.
      - now apply (C1 u). }
    exists P2, (h :: M1 ++ M2), st2. rewrite <- app_assoc in *. cbn [app] in *. repeat (split; try assumption).
    intros h' [<-|Hh']; [apply in_or_app; right; now left|]. now apply H2.
Qed.

Lemma all_nodes : forall P L st, inv P L st -> all_fired P L None -> (forall u c, In u L -> In c (outs g u) -> P c = true) ->
  (forall h, In h (heads g) -> In h L) -> forall v, node g v -> In v L.
Proof.
  intros P L st Hi Hf Ho Hh v. remember (rank v) as r eqn:Er. revert v Er. induction r as [r IH] using lt_wf_ind. intros v -> [Nv|Nv]; [now apply Hh|].
  apply Hf; [discriminate|exact Nv|]. unfold complete. apply forallb_forall. intros c Hc. apply in_ins in Hc as [Cc Et].
  apply (Ho (from g c)); [|apply in_outs; now split]. apply (IH (rank (from g c))); [rewrite <- Et; now apply Hrank|reflexivity|now apply Hnode].
Qed.
End Forward.
