From Coq Require Import List Arith Bool Lia.
From Verif Require Import Outcome Graph_Model Graph_Spec Graph_Forward.
Import ListNotations.

Section Backward.
Context {T : Type} (g : graph) (layer_back : nat -> T -> outcome (list T)) (add : T -> T -> T) (divide : T -> nat -> T)
  (good : nat -> T -> Prop) (rank : nat -> nat) (base : list (nat * T)) (given : nat -> T).
Hypothesis Hrank : forall c, conn g c -> rank (from g c) < rank (to g c).
Hypothesis Hnode : forall c, conn g c -> node g (from g c).
Hypothesis Hgadd : forall v a b, good v a -> good v b -> good v (add a b).
Hypothesis Hgdiv : forall v a n, good v a -> good v (divide a n).
Hypothesis Hback : forall v e, node g v -> good v e -> exists es, layer_back v e = Ok es /\ length es = length (ins g v) /\ Forall2 (fun c x => good (from g c) x) (ins g v) es.

(** The error of a node: given for an output, that of its successor if there is one, otherwise the
    average of theirs with the last one counted twice. *)
Definition error_of (msg : nat -> T) (v : nat) (e : T) : Prop :=
  match outs g v with
  | [] => e = given v
  | [c] => e = msg c
  | cs => exists last, In last cs /\ e = divide (sum_errors add (msg last) (map msg cs)) (length cs)
  end.
Definition ready (P : nat -> bool) (u : nat) : bool := forallb P (outs g u).
Record binv (P : nat -> bool) (L : list nat) (err msg : nat -> T) (st : bstate T) : Prop := {
  b_to : forall c, conn g c -> P c = true -> In (to g c) L;
  b_outs : forall u c, In u L -> In c (outs g u) -> P c = true;
  b_val : forall c, conn g c -> P c = true -> ready P (from g c) = false -> prior_error st c = Some (msg c);
  b_none : forall c, conn g c -> P c = false -> prior_error st c = None;
  b_nodup : NoDup L;
  b_order : forall c, conn g c -> In (from g c) L -> before L (to g c) (from g c);
  b_node : forall v, In v L -> node g v;
  b_back : forall v, In v L -> layer_back v (err v) = Ok (map msg (ins g v));
  b_err : forall v, In v L -> error_of msg v (err v);
  b_good : forall c, conn g c -> In (to g c) L -> good (from g c) (msg c);
  b_received : received st = base ++ map (fun v => (v, err v)) L }.
Definition ball_fired (P : nat -> bool) (L : list nat) (except : option nat) : Prop :=
  forall u, Some u <> except -> outs g u <> [] -> ready P u = true -> In u L.

Lemma ready_mono : forall P P' u, (forall c, P c = true -> P' c = true) -> ready P u = true -> ready P' u = true.
Proof. intros P P' u H. unfold ready. rewrite !forallb_forall. intros G c Hc. apply H, G, Hc. Qed.
Lemma outs_ne : forall c, conn g c -> outs g (from g c) <> [].
Proof. intros c H E. assert (I : In c (outs g (from g c))) by (apply in_outs; now split). rewrite E in I. destruct I. Qed.

(** What a call leaves: the newly called nodes are [N]. *)
Record bpost (P : nat -> bool) (L : list nat) (err msg : nat -> T) (st : bstate T) (P' : nat -> bool) (N : list nat) (err' msg' : nat -> T) (st' : bstate T) (except : option nat) : Prop := {
  p_inv : binv P' (L ++ N) err' msg' st';
  p_fired : ball_fired P' (L ++ N) None;
  p_mono : forall c, P c = true -> P' c = true;
  p_ins : forall u c, In u N -> In c (ins g u) -> P' c = true;
  p_clear : forall u c, In u N -> Some u <> except -> In c (outs g u) -> prior_error st' c = None;
  p_frame : forall c, conn g c -> In (from g c) L \/ Some (from g c) = except -> prior_error st' c = prior_error st c;
  p_outs : forall u, In u N -> Some u <> except -> outs g u <> [];
  p_err : forall v, In v L -> err' v = err v;
  p_msg : forall c, conn g c -> In (to g c) L -> msg' c = msg c }.

Definition exec_spec (exec : nat -> T -> bstate T -> bstate T * status) (u : nat) : Prop :=
  forall P L err msg st a, node g u -> binv P L err msg st -> ball_fired P L (Some u) -> ~ In u L -> ready P u = true -> error_of msg u a -> good u a ->
    exists P' M err' msg' st', exec u a st = (st', Fine) /\ bpost P L err msg st P' (u :: M) err' msg' st' (Some u) /\
      (forall c, conn g c -> P' c = true -> P c = true \/ In (to g c) (u :: M)).

Lemma sum_good : forall v l e, good v e -> (forall x, In x l -> good v x) -> good v (sum_errors add e l).
Proof. intros v l. induction l as [|x l IH]; intros e He Hl; [exact He|]. cbn [sum_errors]. apply IH; [apply Hgadd; [exact He|apply Hl; now left]|intros y Hy; apply Hl; now right]. Qed.

Lemma send_back_ok : forall exec v, (forall u, rank u < rank v -> exec_spec exec u) ->
  forall cs P L err msg st, NoDup cs -> (forall c, In c cs -> conn g c /\ to g c = v /\ P c = false) -> binv P L err msg st -> ball_fired P L None -> In v L ->
  exists P' M err' msg' st', send_back g add divide exec cs (map msg cs) st = (st', Fine) /\ bpost P L err msg st P' M err' msg' st' None /\
    (forall c, In c cs -> P' c = true) /\ (forall c, conn g c -> P' c = true -> P c = true \/ In c cs \/ In (to g c) M).
Proof.
  intros exec v Hexec cs. induction cs as [|c cs IH]; intros P L err msg st Hnd Hcs Hi Hf Hv.
  - exists P, [], err, msg, st. split; [reflexivity|]. split; [|split; [intros c []|intros c _ H; now left]].
    constructor; [now rewrite app_nil_r|now rewrite app_nil_r|auto|intros ? ? []|intros ? ? []|reflexivity|intros ? []|reflexivity|reflexivity].
  - cbn [map send_back]. destruct (Hcs c) as (Cc & Cf & Cp); [now left|]. set (u := from g c). apply NoDup_cons_iff in Hnd as [Hc Hnd'].
    set (P1 := set_at P c true).
    assert (M1 : forall c', P c' = true -> P1 c' = true). { intros c' H. subst P1. destruct (Nat.eq_dec c' c) as [->|N]; [apply set_at_same|]. rewrite set_at_other by exact N. exact H. }
    assert (Hu : ~ In u L). { intros G. assert (X : P c = true) by (apply (b_outs _ _ _ _ _ Hi u); [exact G|]; apply in_outs; now split). congruence. }
    assert (Ou : outs g u <> []) by (apply outs_ne; exact Cc).
    assert (Iu : In c (outs g u)) by (apply in_outs; now split).
    assert (Ru : rank u < rank v) by (rewrite <- Cf; now apply Hrank).
    assert (Nu : node g u) by now apply Hnode.
    assert (Hf1 : ball_fired P1 L (Some u)).
    { intros w Nw Iw Cw. apply Hf; [discriminate|exact Iw|]. unfold ready in *. rewrite forallb_forall in *. intros c' Hc'. specialize (Cw c' Hc').
      subst P1. rewrite set_at_other in Cw; [exact Cw|]. intros ->. apply in_outs in Hc' as [_ E]. apply Nw. now rewrite <- E. }
    assert (Gc : good u (msg c)) by (apply (b_good _ _ _ _ _ Hi); [exact Cc|rewrite Cf; exact Hv]).
    (* the invariant once the connection has its error, stored or not *)
    assert (Hi1 : forall st1, received st1 = received st -> (forall c', c' <> c -> prior_error st1 c' = prior_error st c') ->
      (ready P1 u = false -> prior_error st1 c = Some (msg c)) -> binv P1 L err msg st1).
    { intros st1 Er Eo Ec. destruct Hi as [A1 A2 A3 A4 A5 A6 A7 A8 A9 A10 A11]. constructor; try assumption.
      - intros c' Cc' H. destruct (Nat.eq_dec c' c) as [->|N]; [rewrite Cf; exact Hv|]. subst P1. rewrite set_at_other in H by exact N. now apply A1.
      - intros w c' Hw Hc'. apply M1. now apply (A2 w).
      - intros c' Cc' H G. destruct (Nat.eq_dec c' c) as [->|N]; [now apply Ec|]. rewrite Eo by exact N. apply A3; [exact Cc'|subst P1; rewrite set_at_other in H by exact N; exact H|].
        destruct (ready P (from g c')) eqn:E; [|reflexivity]. apply (ready_mono _ _ _ M1) in E. congruence.
      - intros c' Cc' H. destruct (Nat.eq_dec c' c) as [->|N]; [subst P1; rewrite set_at_same in H; discriminate|]. rewrite Eo by exact N. apply A4; [exact Cc'|]. subst P1. rewrite set_at_other in H by exact N. exact H.
      - congruence. }
    set (st1 := {| prior_error := set_at (prior_error st) c (Some (msg c)); received := received st |}).
    (* one connection *)
    assert (Step : exists P2 M2 err2 msg2 st2,
       (if Nat.eqb (length (outs g u)) 1 then exec u (msg c) st
        else match averaged add divide st1 (outs g u) (msg c) with
             | None => (st1, Fine)
             | Some a => match exec u a st1 with (st, Fine) => ({| prior_error := clear_all (prior_error st) (outs g u); received := received st |}, Fine) | r => r end
             end) = (st2, Fine) /\
       bpost P L err msg st P2 M2 err2 msg2 st2 None /\ (forall c', P1 c' = true -> P2 c' = true) /\
       (forall c', conn g c' -> P2 c' = true -> P c' = true \/ c' = c \/ In (to g c') M2)).
    { destruct (Nat.eqb_spec (length (outs g u)) 1) as [E1|E1].
      - (* a single successor *)
        assert (Eo : outs g u = [c]). { destruct (outs g u) as [|x [|y l]]; try discriminate. destruct Iu as [->|[]]. reflexivity. }
        assert (R1 : ready P1 u = true). { unfold ready. rewrite Eo. cbn. subst P1. now rewrite set_at_same. }
        destruct (Hexec u Ru P1 L err msg st (msg c) Nu) as (P2 & M2 & err2 & msg2 & st2 & E2 & B2 & New2); try assumption.
        { apply Hi1; [reflexivity|reflexivity|]. intros X. congruence. }
        { unfold error_of. now rewrite Eo. }
        exists P2, (u :: M2), err2, msg2, st2. split; [exact E2|]. split; [|split; [apply (p_mono _ _ _ _ _ _ _ _ _ _ _ B2)|]].
        + destruct B2 as [B1 B3 B4 B5 B6 B7 B8 B9 B10]. constructor; try assumption.
          * intros c' H. apply B4, M1, H.
          * intros w c' Hw _ Hc'. destruct (Nat.eq_dec w u) as [->|N]; [|apply (B6 w); [exact Hw|congruence|exact Hc']].
            rewrite Eo in Hc'. destruct Hc' as [<-|[]]. rewrite B7; [apply (b_none _ _ _ _ _ Hi); [exact Cc|exact Cp]|exact Cc|now right].
          * intros c' Cc' [H|H]; [|discriminate]. apply B7; [exact Cc'|now left].
          * intros w Hw _. destruct (Nat.eq_dec w u) as [->|N]; [exact Ou|apply B8; [exact Hw|congruence]].
        + intros c' Cc' H. destruct (New2 c' Cc' H) as [G|G]; [|right; right; exact G]. subst P1.
          destruct (Nat.eq_dec c' c) as [->|N]; [right; now left|]. rewrite set_at_other in G by exact N. now left.
      - assert (Hi1' : binv P1 L err msg st1).
        { apply Hi1; [reflexivity| |]; cbn [prior_error st1]; [intros c' N; now apply set_at_other|intros _; apply set_at_same]. }
        destruct (ready P1 u) eqn:Er.
        + (* all successors have sent *)
          assert (Ea : all_some (map (prior_error st1) (outs g u)) = Some (map msg (outs g u))).
          { apply all_some_all. intros c' Hc'. cbn [prior_error st1]. destruct (Nat.eq_dec c' c) as [->|N]; [apply set_at_same|].
            rewrite set_at_other by exact N. apply in_outs in Hc' as [Cc' Eu]. apply (b_val _ _ _ _ _ Hi); [exact Cc'| |].
            - unfold ready in Er. rewrite forallb_forall in Er. specialize (Er c'). subst P1. rewrite set_at_other in Er by exact N. apply Er. apply in_outs. now split.
            - rewrite Eu. destruct (ready P u) eqn:E; [|reflexivity]. exfalso. apply Hu. now apply Hf. }
          unfold averaged. rewrite Ea. set (a := divide (sum_errors add (msg c) (map msg (outs g u))) (length (outs g u))).
          destruct (Hexec u Ru P1 L err msg st1 a Nu) as (P2 & M2 & err2 & msg2 & st2 & E2 & B2 & New2); try assumption.
          { unfold error_of. assert (X : exists last, In last (outs g u) /\ a = divide (sum_errors add (msg last) (map msg (outs g u))) (length (outs g u))) by (exists c; now split).
            destruct (outs g u) as [|x [|y l]]; [contradiction|cbn in E1; lia|exact X]. }
          { apply Hgdiv. apply sum_good; [exact Gc|]. intros x Hx. apply in_map_iff in Hx as (c' & <- & Hc'). apply in_outs in Hc' as [Cc' Eu]. rewrite <- Eu.
            apply (b_good _ _ _ _ _ Hi); [exact Cc'|]. apply (b_to _ _ _ _ _ Hi1'); [exact Cc'|]. unfold ready in Er. rewrite forallb_forall in Er. apply Er. apply in_outs. now split. }
          rewrite E2. exists P2, (u :: M2), err2, msg2. eexists. split; [reflexivity|]. destruct B2 as [B1 B3 B4 B5 B6 B7 B8 B9 B10].
          assert (Cu : forall c', In c' (outs g u) -> P2 c' = true).
          { intros c' Hc'. apply (b_outs _ _ _ _ _ B1 u); [|exact Hc']. apply in_or_app. right. now left. }
          assert (Num : ~ In u M2).
          { pose proof (b_nodup _ _ _ _ _ B1) as N2. apply NoDup_remove_2 in N2. intros G. apply N2. apply in_or_app. now right. }
          split; [|split; [exact B4|]].
          * constructor; try assumption.
            -- destruct B1 as [A1 A2 A3 A4 A5 A6 A7 A8 A9 A10 A11]. constructor; cbn [prior_error received]; try assumption.
               ++ intros c' Cc' Pc' Co. rewrite clear_all_out; [now apply A3|]. intros G. apply in_outs in G as [_ G]. rewrite G in Co.
                  assert (X : ready P2 u = true) by (unfold ready; apply forallb_forall; exact Cu). congruence.
               ++ intros c' Cc' Pc'. destruct (in_dec Nat.eq_dec c' (outs g u)) as [G|G]; [now apply clear_all_in|]. rewrite clear_all_out by exact G. now apply A4.
            -- intros c' H. apply B4, M1, H.
            -- intros w c' Hw _ Hc'. cbn [prior_error]. destruct Hw as [<-|Hw]; [now apply clear_all_in|]. rewrite clear_all_out; [apply (B6 w); [now right| |exact Hc']|].
               ++ intros G. injection G as ->. contradiction.
               ++ intros G. apply in_outs in G as [_ G]. apply in_outs in Hc' as [_ G']. apply Num. rewrite <- G, G'. exact Hw.
            -- intros c' Cc' [Hc'|Hc']; [|discriminate]. cbn [prior_error]. rewrite clear_all_out.
               2:{ intros G. apply in_outs in G as [_ G]. apply Hu. now rewrite <- G. }
               rewrite B7 by (try assumption; now left). cbn [prior_error st1]. apply set_at_other. intros ->. apply Hu. exact Hc'.
            -- intros w Hw _. destruct (Nat.eq_dec w u) as [->|N]; [exact Ou|apply B8; [exact Hw|congruence]].
          * intros c' Cc' H. destruct (New2 c' Cc' H) as [G|G]; [|right; right; exact G]. subst P1.
            destruct (Nat.eq_dec c' c) as [->|N]; [right; now left|]. rewrite set_at_other in G by exact N. now left.
        + (* not yet *)
          assert (Ea : averaged add divide st1 (outs g u) (msg c) = None).
          { unfold averaged. assert (X : exists c', In c' (outs g u) /\ P1 c' = false).
            { unfold ready in Er. clear - Er. induction (outs g u) as [|x l IH]; [discriminate|]. cbn in Er. destruct (P1 x) eqn:Ex; [|exists x; split; [now left|exact Ex]].
              destruct IH as (y & Hy & Ey); [exact Er|]. exists y. split; [now right|exact Ey]. }
            destruct X as (c' & Hc' & Ep). rewrite (all_some_none _ _ c' Hc'); [reflexivity|]. apply (b_none _ _ _ _ _ Hi1'); [now apply in_outs in Hc'|exact Ep]. }
          rewrite Ea. exists P1, [], err, msg, st1. split; [reflexivity|]. split; [|split; [auto|]].
          * constructor; try (rewrite app_nil_r).
            -- exact Hi1'.
            -- intros w Nw Iw Cw. apply Hf1; try assumption. intros X. injection X as ->. congruence.
            -- exact M1.
            -- intros w c' [].
            -- intros w c' [].
            -- intros c' Cc' [Hc'|Hc']; [|discriminate]. cbn [prior_error st1]. apply set_at_other. intros ->. apply Hu. exact Hc'.
            -- intros w [].
            -- reflexivity.
            -- reflexivity.
          * intros c' Cc' H. subst P1. destruct (Nat.eq_dec c' c) as [->|N]; [right; now left|]. rewrite set_at_other in H by exact N. now left. }
    destruct Step as (P2 & M2 & err2 & msg2 & st2 & E2 & S2 & Mo2 & New2).
    pose proof (b_nodup _ _ _ _ _ (p_inv _ _ _ _ _ _ _ _ _ _ _ S2)) as Nd2.
    assert (Nv : ~ In v M2). { intros G. apply in_split in Hv as (a & b & ->). rewrite <- app_assoc in Nd2. cbn [app] in Nd2. apply NoDup_remove_2 in Nd2. apply Nd2. apply in_or_app. right. apply in_or_app. now right. }
    destruct (IH P2 (L ++ M2) err2 msg2 st2) as (P3 & M3 & err3 & msg3 & st3 & E3 & S3 & A3 & New3).
    { exact Hnd'. }
    { intros c' Hc'. destruct (Hcs c') as (X1 & X2 & X3); [now right|]. split; [exact X1|]. split; [exact X2|]. destruct (P2 c') eqn:E; [|reflexivity]. exfalso.
      destruct (New2 c' X1 E) as [G|[G|G]]; [congruence|subst c'; contradiction|]. rewrite X2 in G. contradiction. }
    { apply (p_inv _ _ _ _ _ _ _ _ _ _ _ S2). }
    { apply (p_fired _ _ _ _ _ _ _ _ _ _ _ S2). }
    { apply in_or_app. now left. }
    assert (Emsg : map msg2 cs = map msg cs).
    { apply map_ext_in. intros c' Hc'. destruct (Hcs c') as (X1 & X2 & X3); [now right|]. apply (p_msg _ _ _ _ _ _ _ _ _ _ _ S2); [exact X1|]. rewrite X2. exact Hv. }
    rewrite Emsg in E3.
    exists P3, (M2 ++ M3), err3, msg3, st3. split; [|split; [|split]].
    + fold u. fold st1. destruct (Nat.eqb (length (outs g u)) 1).
      * rewrite E2. exact E3.
      * destruct (averaged add divide st1 (outs g u) (msg c)) as [a|].
        -- rewrite E2. exact E3.
        -- injection E2 as ->. exact E3.
    + destruct S2 as [B1 B3 B4 B5 B6 B7 B8 B9 B10]. destruct S3 as [D1 D3 D4 D5 D6 D7 D8 D9 D10]. constructor; try rewrite app_assoc.
      * exact D1.
      * exact D3.
      * intros c' H. apply D4, B4, H.
      * intros w c' Hw Hc'. apply in_app_or in Hw as [Hw|Hw]; [|now apply (D5 w)]. apply D4. now apply (B5 w).
      * intros w c' Hw N Hc'. apply in_app_or in Hw as [Hw|Hw]; [|now apply (D6 w)].
        apply in_outs in Hc' as Hc2. destruct Hc2 as [Cc' Et]. rewrite D7; [now apply (B6 w)|exact Cc'|]. left. rewrite Et. apply in_or_app. now right.
      * intros c' Cc' [Hc'|Hc']; [|discriminate]. rewrite D7; [|exact Cc'|left; apply in_or_app; now left]. apply B7; [exact Cc'|now left].
      * intros w Hw N. apply in_app_or in Hw as [Hw|Hw]; [now apply B8|now apply D8].
      * intros w Hw. rewrite D9 by (apply in_or_app; now left). now apply B9.
      * intros c' Cc' Hc'. rewrite D10; [now apply B10|exact Cc'|apply in_or_app; now left].
    + intros c' [<-|Hc']; [|now apply A3]. apply (p_mono _ _ _ _ _ _ _ _ _ _ _ S3), Mo2. subst P1. apply set_at_same.
    + intros c' Cc' H. destruct (New3 c' Cc' H) as [G|[G|G]].
      * destruct (New2 c' Cc' G) as [X|[X|X]]; [now left|right; left; left; congruence|right; right; apply in_or_app; now left].
      * right. left. now right.
      * right. right. apply in_or_app. now right.
Qed.

Lemma assign : forall (l : list nat) (es : list T) (f : nat -> T), NoDup l -> length es = length l -> exists f', map f' l = es /\ forall c, ~ In c l -> f' c = f c.
Proof.
  induction l as [|x l IH]; intros [|e es] f Nd Hl; try discriminate; [exists f; now split|]. apply NoDup_cons_iff in Nd as [Nx Nd].
  destruct (IH es f Nd) as (f' & E & O); [cbn in Hl; lia|]. exists (set_at f' x e). split.
  - cbn [map]. rewrite set_at_same. f_equal. rewrite <- E. apply map_ext_in. intros c Hc. apply set_at_other. intros ->. contradiction.
  - intros c Hc. rewrite set_at_other by (intros ->; apply Hc; now left). apply O. intros G. apply Hc. now right.
Qed.
Lemma error_of_ext : forall msg msg' v e, (forall c, In c (outs g v) -> msg' c = msg c) -> error_of msg v e -> error_of msg' v e.
Proof.
  intros msg msg' v e H. unfold error_of. destruct (outs g v) as [|x [|y l]]; [auto|intros ->; symmetry; apply H; now left|].
  intros (last & Hl & ->). exists last. split; [exact Hl|]. rewrite (H last Hl). f_equal. f_equal. symmetry. apply map_ext_in. exact H.
Qed.
Lemma forall2_map : forall (Q : nat -> T -> Prop) l f, Forall2 Q l (map f l) -> forall c, In c l -> Q c (f c).
Proof. intros Q l f H c Hc. induction l as [|x l IH]; [destruct Hc|]. inversion H; subst. destruct Hc as [<-|Hc]; [assumption|now apply IH]. Qed.

Lemma exec_back_ok : forall fuel v, rank v < fuel -> exec_spec (backward g layer_back add divide fuel) v.
Proof.
  induction fuel as [|fuel IH]; intros v Hfu P L err msg st a Nv Hi Hf Hv Hr He Hg; [lia|]. cbn [backward].
  destruct (Hback v a Nv Hg) as (es & Eb & El & Fg). rewrite Eb.
  assert (Ec : negb (match ins g v with [] => true | _ => false end) && negb (Nat.eqb (length es) (length (ins g v))) = false).
  { rewrite El, Nat.eqb_refl. cbn. apply andb_false_r. }
  rewrite Ec. clear Ec. destruct (assign (ins g v) es msg (ins_NoDup g v) El) as (msg1 & Em & Eo). set (err1 := set_at err v a).
  set (st1 := {| prior_error := prior_error st; received := received st ++ [(v, a)] |}). rewrite <- Em.
  assert (Couts : forall c, In c (outs g v) -> P c = true) by (apply forallb_forall; exact Hr).
  assert (Old : forall c, conn g c -> In (to g c) L -> msg1 c = msg c). { intros c Cc Hc. apply Eo. intros G. apply in_ins in G as [_ G]. rewrite G in Hc. contradiction. }
  assert (Eerr : forall w, In w L -> err1 w = err w). { intros w Hw. apply set_at_other. intros ->. contradiction. }
  assert (Hi1 : binv P (L ++ [v]) err1 msg1 st1).
  { destruct Hi as [A1 A2 A3 A4 A5 A6 A7 A8 A9 A10 A11]. constructor; cbn [prior_error received st1].
    - intros c Cc Pc. apply in_or_app. left. now apply A1.
    - intros w c H Hc. apply in_app_or in H as [H|[<-|[]]]; [now apply (A2 w)|now apply Couts].
    - intros c Cc Pc Rc. rewrite A3 by assumption. f_equal. symmetry. apply Old; [exact Cc|now apply A1].
    - exact A4.
    - rewrite <- (rev_involutive (L ++ [v])). apply NoDup_rev. rewrite rev_app_distr. cbn. constructor; [now rewrite <- in_rev|now apply NoDup_rev].
    - intros c Cc H. apply in_app_or in H as [H|[H|[]]]; [apply before_app; now apply A6|]. rewrite <- H. apply before_last. apply A1; [exact Cc|]. apply Couts. apply in_outs. now split.
    - intros w H. apply in_app_or in H as [H|[<-|[]]]; [now apply A7|exact Nv].
    - intros w H. apply in_app_or in H as [H|[<-|[]]].
      + rewrite Eerr by exact H. rewrite A8 by exact H. f_equal. apply map_ext_in. intros c Hc. symmetry. apply in_ins in Hc as [Cc Et]. apply Old; [exact Cc|]. now rewrite Et.
      + subst err1. rewrite set_at_same, Em. exact Eb.
    - intros w H. apply in_app_or in H as [H|[<-|[]]].
      + rewrite Eerr by exact H. apply (error_of_ext msg); [|now apply A9]. intros c Hc. apply in_outs in Hc as Hc2. destruct Hc2 as [Cc _]. apply Old; [exact Cc|]. apply A1; [exact Cc|]. now apply (A2 w).
      + subst err1. rewrite set_at_same. apply (error_of_ext msg); [|exact He]. intros c Hc. apply in_outs in Hc as Hc2. destruct Hc2 as [Cc _]. apply Old; [exact Cc|]. apply A1; [exact Cc|]. now apply Couts.
    - intros c Cc H. apply in_app_or in H as [H|[H|[]]].
      + rewrite Old by assumption. now apply A10.
      + apply (forall2_map (fun c x => good (from g c) x) (ins g v)); [now rewrite Em|]. apply in_ins. now split.
    - rewrite A11, map_app, <- app_assoc. cbn [map]. f_equal. f_equal; [apply map_ext_in; intros w Hw; now rewrite Eerr|]. subst err1. now rewrite set_at_same. }
  assert (AF : ball_fired P (L ++ [v]) None).
  { intros u _ Iu Cu. apply in_or_app. destruct (Nat.eq_dec u v) as [->|N]; [right; now left|]. left. apply Hf; try assumption. congruence. }
  destruct (send_back_ok (backward g layer_back add divide fuel) v) with (cs := ins g v) (P := P) (L := L ++ [v]) (err := err1) (msg := msg1) (st := st1) as (P' & M & err' & msg' & st' & E & S' & A & New).
  - intros u Hu. apply IH. lia.
  - apply ins_NoDup.
  - intros c Hc. apply in_ins in Hc as [Cc Ec]. split; [exact Cc|]. split; [exact Ec|]. destruct (P c) eqn:Ep; [|reflexivity]. exfalso. apply Hv. rewrite <- Ec. now apply (b_to _ _ _ _ _ Hi).
  - exact Hi1.
  - exact AF.
  - apply in_or_app. right. now left.
  - exists P', M, err', msg', st'. split; [exact E|]. destruct S' as [S1 S2 S3 S4 S5 S6 S7 S8 S9]. rewrite <- app_assoc in S1, S2. cbn [app] in S1, S2. split.
    + constructor; try assumption.
      * intros w c [<-|Hw] Hc; [now apply A|now apply (S4 w)].
      * intros w c [<-|Hw] N Hc; [contradiction|]. apply (S5 w); [exact Hw|discriminate|exact Hc].
      * intros c Cc H. rewrite S6; [reflexivity|exact Cc|]. left. apply in_or_app. destruct H as [H|H]; [now left|right; left]. congruence.
      * intros w [<-|Hw] N; [contradiction|]. apply S7; [exact Hw|discriminate].
      * intros w Hw. rewrite S8 by (apply in_or_app; now left). now apply Eerr.
      * intros c Cc Hc. rewrite S9; [now apply Old|exact Cc|apply in_or_app; now left].
    + intros c Cc H. destruct (New c Cc H) as [G|[G|G]]; [now left| |right; now right]. right. left. symmetry. apply in_ins in G. apply G.
Qed.

Lemma outputs_ok : forall fuel os P L err msg st, (forall v, node g v -> rank v < fuel) ->
  NoDup (map fst os) -> (forall o e, In (o, e) os -> node g o /\ outs g o = [] /\ ~ In o L /\ e = given o /\ good o e) ->
  binv P L err msg st -> ball_fired P L None -> (forall u c, In u L -> In c (ins g u) -> P c = true) -> (forall u c, In u L -> In c (outs g u) -> prior_error st c = None) ->
  exists P' M err' msg' st', backward_outputs g layer_back add divide fuel os st = (st', Fine) /\ binv P' (L ++ M) err' msg' st' /\ ball_fired P' (L ++ M) None /\
    (forall u c, In u (L ++ M) -> In c (ins g u) -> P' c = true) /\ (forall u c, In u (L ++ M) -> In c (outs g u) -> prior_error st' c = None) /\
    (forall o, In o (map fst os) -> In o (L ++ M)).
Proof.
  intros fuel os. induction os as [|[o e] os IH]; intros P L err msg st Hfu Hnd Hh Hi Hf Ho Hc.
  - exists P, [], err, msg, st. rewrite app_nil_r. repeat (split; try assumption); try reflexivity. intros h [].
  - cbn [backward_outputs]. destruct (Hh o e) as (Nh & Ih & Nl & Ee & Ge); [now left|].
    destruct (exec_back_ok fuel o (Hfu o Nh) P L err msg st e) as (P1 & M1 & err1 & msg1 & st1 & E1 & B1 & New1); try assumption.
    { intros u Nu Iu Cu. now apply Hf. }
    { unfold ready. now rewrite Ih. }
    { unfold error_of. now rewrite Ih. }
    rewrite E1. cbn [map fst] in Hnd. apply NoDup_cons_iff in Hnd as [Hn Hnd]. destruct B1 as [S1 S2 S3 S4 S5 S6 S7 S8 S9].
    destruct (IH P1 (L ++ o :: M1) err1 msg1 st1) as (P2 & M2 & err2 & msg2 & st2 & E2 & I2 & F2 & O2 & C2 & H2); try assumption.
    { intros h' x' Hin. destruct (Hh h' x') as (Nh' & Ih' & Nl' & Ee' & Ge'); [now right|]. repeat (split; try assumption).
      assert (Nho : h' <> o) by (intros ->; apply Hn; apply in_map_iff; now exists (o, x')).
      intros G. apply in_app_or in G as [G|[G|G]]; [contradiction|congruence|]. apply (S7 h'); [now right|congruence|exact Ih']. }
    { intros u c Hu Hoc. apply in_app_or in Hu as [Hu|Hu]; [|now apply (S4 u)]. apply S3. now apply (Ho u). }
    { intros u c Hu Hic. apply in_app_or in Hu as [Hu|Hu].
      - apply in_outs in Hic as X. destruct X as [Cc Et]. rewrite S6; [now apply (Hc u)|exact Cc|]. left. now rewrite Et.
      - destruct (Nat.eq_dec u o) as [->|N]; [rewrite Ih in Hic; destruct Hic|]. apply (S5 u); [exact Hu|congruence|exact Hic]. }
    exists P2, (o :: M1 ++ M2), err2, msg2, st2. rewrite <- app_assoc in *. cbn [app] in *. repeat (split; try assumption).
    intros h' [<-|Hh']; [apply in_or_app; right; now left|]. now apply H2.
Qed.

Lemma all_nodes_back : forall top P L err msg st, (forall v, node g v -> rank v <= top) -> binv P L err msg st -> ball_fired P L None -> (forall u c, In u L -> In c (ins g u) -> P c = true) ->
  (forall v, node g v -> outs g v = [] -> In v L) -> forall v, node g v -> In v L.
Proof.
  intros top P L err msg st Ht Hi Hf Ho Hh v Nv. remember (top - rank v) as r eqn:Er. revert v Er Nv. induction r as [r IH] using lt_wf_ind. intros v -> Nv.
  destruct (outs g v) as [|c0 cs0] eqn:Eo; [now apply Hh|]. apply Hf; [discriminate|congruence|]. unfold ready. apply forallb_forall. intros c Hc. apply in_outs in Hc as [Cc Et].
  assert (Nt : node g (to g c)) by (right; now apply ins_ne). pose proof (Hrank c Cc) as R1. rewrite Et in R1. pose proof (Ht _ Nt) as R2.
  apply (Ho (to g c)); [|apply in_ins; now split]. apply (IH (top - rank (to g c))); [lia|reflexivity|exact Nt].
Qed.
End Backward.
