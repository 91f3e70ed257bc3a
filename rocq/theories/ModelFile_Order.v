(** The order in which the connections of a network are made. *)
From Coq Require Import Ascii String List Bool Arith NArith ZArith Reals Lia Permutation Sorted.
From Verif Require Import Chars Outcome NumText_Model ModelFile_Model ModelFile_Spec ModelFile_Proofs ModelFile_Text ModelFile_Load ModelFile_Reload ModelFile_Dfs.
Import ListNotations.
Open Scope nat_scope.

Definition from_node (u : nat) (c : nat * nat) : bool := Nat.eqb (fst c) u.
(** What building makes of connections: each new vertex all of its own, in order. *)
Record joined_up (d : dsl) (id : nat) (b b' : building) (new : list (nat * nat)) : Prop := {
  ju_app : connections b' = connections b ++ new;
  ju_keep : forall u, In u (built b) -> In u (built b');
  ju_new : forall u, In u (built b') -> In u (built b) \/ u = id \/ exists p, In u (edges_at d p);
  ju_own : forall u, filter (from_node u) new = if existsb (Nat.eqb u) (built b) then [] else if existsb (Nat.eqb u) (built b') then map (fun e => (u, e)) (edges_at d u) else [] }.
Lemma existsb_false : forall u l, existsb (Nat.eqb u) l = false <-> ~ In u l.
Proof. intros u l. rewrite <- existsb_In. destruct (existsb (Nat.eqb u) l); split; congruence. Qed.
Lemma filter_own : forall (x u : nat) es, filter (from_node u) (map (fun e => (x, e)) es) = if Nat.eqb x u then map (fun e => (x, e)) es else [].
Proof.
  intros x u es. induction es as [|e es IH]; cbn [map filter]; [now destruct (Nat.eqb x u)|]. unfold from_node at 1. cbn [fst]. rewrite IH. now destruct (Nat.eqb x u).
Qed.
Lemma build_layer_joins : forall d fuel id b b', build_layer fuel d id b = Ok b' -> In id (built b') /\ exists new, joined_up d id b b' new.
Proof.
  intros d. induction fuel as [|fuel IH]; intros id b b' H; [discriminate|]. rewrite build_layer_S in H. destruct (existsb (Nat.eqb id) (built b)) eqn:X.
  - injection H as <-. split; [now apply existsb_In|]. exists []. constructor; auto; [now rewrite app_nil_r|]. intros u. cbn [filter]. now destruct (existsb (Nat.eqb u) (built b)).
  - destruct (vertex_at d id) as [v| |] eqn:Ev; cbn [obind] in H; try discriminate. destruct (construct v) as [[]| |]; cbn [obind] in H; try discriminate. apply vertex_at_ok in Ev as [_ Ev].
    assert (EA : edges_at d id = edges v) by (unfold edges_at; now rewrite Ev).
    set (b0 := {| built := id :: built b; records := records b ++ [vertex_record id v]; connections := connections b |}) in *.
    destruct (kids (build_layer fuel d) id (edges v) b0) as [b1| |] eqn:Ek; cbn [obind] in H; try discriminate.
    assert (Q : built b' = built b1 /\ connections b' = connections b1) by (destruct (edges v); injection H as <-; now split). destruct Q as [Q1 Q2].
    assert (K : forall es b0 b1, kids (build_layer fuel d) id es b0 = Ok b1 -> In id (built b0) -> (forall e, In e es -> In e (edges_at d id)) ->
      exists new, connections b1 = connections b0 ++ new /\ (forall u, In u (built b0) -> In u (built b1)) /\ (forall u, In u (built b1) -> In u (built b0) \/ exists p, In u (edges_at d p)) /\
        forall u, filter (from_node u) new = if Nat.eqb id u then map (fun e => (u, e)) es else if existsb (Nat.eqb u) (built b0) then [] else if existsb (Nat.eqb u) (built b1) then map (fun e => (u, e)) (edges_at d u) else []).
    { clear - IH. induction es as [|e es IHe]; intros b0 b1 H I HE; cbn [kids] in H.
      - injection H as <-. exists []. rewrite app_nil_r. split; [reflexivity|]. split; [auto|]. split; [auto|]. intros u. cbn [filter map]. now destruct (Nat.eqb id u), (existsb (Nat.eqb u) (built b0)).
      - destruct (build_layer fuel d e b0) as [b2| |] eqn:E; cbn [obind] in H; try discriminate. destruct (IH _ _ _ E) as (Ie & new1 & [J1 J2 J3 J4]).
        destruct (IHe _ _ H) as (new2 & N1 & N2 & N3 & N4); cbn [built connections] in *; [now apply J2|intros y Hy; apply HE; now right|].
        exists (new1 ++ (id, e) :: new2). split; [rewrite N1, J1, <- !app_assoc; reflexivity|]. split; [auto|]. split.
        + intros u Hu. destruct (N3 _ Hu) as [Hu'|Hu']; [|now right]. destruct (J3 _ Hu') as [Hb|[->|Hp]]; [now left| |now right]. right. exists id. apply HE. now left.
        + intros u. rewrite filter_app. cbn [filter]. unfold from_node at 2. cbn [fst]. rewrite J4, N4. destruct (Nat.eqb_spec id u) as [<-|Nu].
          * rewrite (proj2 (existsb_In id (built b0)) I). cbn [map app]. reflexivity.
          * destruct (existsb (Nat.eqb u) (built b0)) eqn:X0.
            -- apply existsb_In in X0. rewrite (proj2 (existsb_In u (built b2)) (J2 _ X0)). reflexivity.
            -- destruct (existsb (Nat.eqb u) (built b2)) eqn:X2; [|reflexivity]. apply existsb_In in X2. rewrite (proj2 (existsb_In u (built b1)) (N2 _ X2)). now rewrite app_nil_r. }
    destruct (K _ _ _ Ek) as (new & N1 & N2 & N3 & N4); [now left|intros e He; now rewrite EA|]. unfold b0 in *. cbn [built connections] in *. rewrite Q1.
    split; [apply N2; now left|]. exists new. constructor; rewrite ?Q1, ?Q2; auto.
    + intros u Hu. apply N2. now right.
    + intros u Hu. destruct (N3 _ Hu) as [[->|Hb]|Hp]; auto.
    + intros u. rewrite N4. cbn [existsb]. destruct (Nat.eqb_spec id u) as [<-|Nu].
      * rewrite X, (proj2 (existsb_In id (built b1)) (N2 id (or_introl eq_refl))), EA. reflexivity.
      * destruct (Nat.eqb_spec u id); [congruence|]. reflexivity.
Qed.
Lemma arriving_app : forall w a b, arriving w (a ++ b) = arriving w a ++ arriving w b.
Proof. intros w a b. unfold arriving. now rewrite filter_app, map_app. Qed.
(** Inputs are built one after the other. *)
Lemma inputs_in_order : forall ps d b w, described ps d -> (forall u, In u (nth (w - 1) ps []) -> accepting (vertices d) u = true) -> increasing (nth (w - 1) ps []) -> 1 <= w <= length (vertices d) ->
  build d = Ok b -> arriving w (connections b) = nth (w - 1) ps [].
Proof.
  intros ps d b w D HA HI Hw H. pose proof D as [D1 D2 D3 D4 D5].
  assert (E_in : forall u, 1 <= u -> In w (edges_at d u) -> In u (nth (w - 1) ps [])).
  { intros u Pu Hu. unfold edges_at in Hu. destruct (nth_error (vertices d) (u - 1)) as [x|] eqn:Ex; [|contradiction Hu]. rewrite (D2 _ _ Ex) in Hu. apply in_adopted in Hu as [_ Hu]. now replace (S (u - 1)) with u in Hu by lia. }
  assert (E_pos : forall u p, In u (edges_at d p) -> 1 <= u).
  { intros u p Hu. unfold edges_at in Hu. destruct (nth_error (vertices d) (p - 1)) as [x|] eqn:Ex; [|contradiction Hu]. rewrite (D2 _ _ Ex) in Hu. apply in_adopted in Hu as [Hu _]. lia. }
  assert (NP : forall u p, accepting (vertices d) u = true -> ~ In u (edges_at d p)).
  { intros u p A I. unfold edges_at in I. destruct (nth_error (vertices d) (p - 1)) as [x|] eqn:Ex; [|contradiction I]. rewrite (D2 _ _ Ex) in I. apply in_adopted in I as [Hu I]. unfold accepting in A.
    destruct (nth_error (vertices d) (u - 1)) as [y|] eqn:Ey; [|discriminate]. destruct (D5 _ _ Ey) as [i v0 P|i v0 P|q i v0 P A2|q v0 P A2|A2]; try congruence; rewrite P in I; contradiction I. }
  unfold build in H. cbv zeta in H. fold (header d) in H. generalize (S (length (vertices d))) H. clear H. intros fuel H.
  set (sel := fun h => existsb (Nat.eqb h) (nth (w - 1) ps [])).
  assert (LOOP : forall hs b0, fold_left (fun b head => do b <- b; build_layer fuel d head b) hs (Ok b0) = Ok b -> NoDup hs -> (forall h, In h hs -> accepting (vertices d) h = true /\ 1 <= h <= length (vertices d) /\ ~ In h (built b0)) ->
    arriving w (connections b) = arriving w (connections b0) ++ filter sel hs).
  { clear H. induction hs as [|h hs IH]; intros b0 H ND Hh; cbn [fold_left obind] in H; [injection H as <-; now rewrite app_nil_r|].
    assert (ZT : forall l, fold_left (fun b head => do b <- b; build_layer fuel d head b) l (@Throw building) = Throw) by (induction l; auto).
    assert (ZU : forall l, fold_left (fun b head => do b <- b; build_layer fuel d head b) l (@UB building) = UB) by (induction l; auto).
    destruct (build_layer fuel d h b0) as [b1| |] eqn:E; [|rewrite ZT in H; discriminate|rewrite ZU in H; discriminate].
    destruct (build_layer_joins _ _ _ _ _ E) as (Ih & new & [J1 J2 J3 J4]). inversion ND as [|? ? N1 N2]; subst. destruct (Hh h (or_introl eq_refl)) as (A0 & R0 & B0).
    rewrite (IH b1 H N2).
    - rewrite J1, arriving_app, <- app_assoc. f_equal. cbn [filter]. assert (AN : arriving w new = if sel h then [h] else []).
      { assert (F1 : filter (fun c => Nat.eqb (snd c) w) new = filter (fun c => Nat.eqb (snd c) w) (filter (from_node h) new)).
        { assert (G : forall l, (forall c, In c l -> snd c = w -> fst c = h) -> filter (fun c => Nat.eqb (snd c) w) l = filter (fun c => Nat.eqb (snd c) w) (filter (from_node h) l)).
          { clear. induction l as [|c l IH]; intros G; [reflexivity|]. cbn [filter]. rewrite IH by (intros x Hx; apply G; now right). destruct (Nat.eqb_spec (snd c) w) as [Ec|Ec].
            - unfold from_node at 2. rewrite (proj2 (Nat.eqb_eq _ _) (G c (or_introl eq_refl) Ec)). cbn [filter]. now rewrite (proj2 (Nat.eqb_eq _ _) Ec).
            - destruct (from_node h c); [cbn [filter]; now rewrite (proj2 (Nat.eqb_neq _ _) Ec)|reflexivity]. }
          apply G. intros [u e] Hc Ew. cbn [fst snd] in *. subst e. assert (Fu : In (u, w) (filter (from_node u) new)) by (apply filter_In; split; [exact Hc|apply Nat.eqb_refl]). rewrite J4 in Fu.
          destruct (existsb (Nat.eqb u) (built b0)) eqn:X0; [contradiction Fu|]. destruct (existsb (Nat.eqb u) (built b1)) eqn:X1; [|contradiction Fu]. apply existsb_In in X1. apply existsb_false in X0.
          apply in_map_iff in Fu as (e & Ee & Ie). injection Ee as ->. destruct (J3 _ X1) as [C|[C|(p & C)]]; [contradiction|exact C|]. exfalso. apply (NP u p); [|exact C]. apply HA. apply E_in; [exact (E_pos _ _ C)|exact Ie]. }
        unfold arriving. rewrite F1, J4. apply existsb_false in B0. rewrite B0, (proj2 (existsb_In h (built b1)) Ih).
        assert (EH : edges_at d h = adopted ps (length (vertices d)) h). { unfold edges_at. destruct (nth_error (vertices d) (h - 1)) as [x|] eqn:Ex; [|apply nth_error_None in Ex; lia]. rewrite (D2 _ _ Ex). now replace (S (h - 1)) with h by lia. }
        rewrite EH. unfold adopted. assert (G : forall l, NoDup l -> map fst (filter (fun c => Nat.eqb (snd c) w) (map (fun e => (h, e)) (flat_map (fun x => repeat x (count_occ Nat.eq_dec (nth (x - 1) ps []) h)) l))) = if existsb (Nat.eqb w) l && sel h then [h] else []).
        { induction l as [|x l IHl]; intros NDl; [reflexivity|]. inversion NDl as [|? ? M1 M2]; subst. cbn [flat_map existsb]. rewrite map_app, filter_app, map_app, (IHl M2). destruct (Nat.eqb_spec w x) as [<-|Nx].
          - assert (XF : existsb (Nat.eqb w) l = false) by (now apply existsb_false). rewrite XF. cbn [andb orb]. rewrite app_nil_r. pose proof (sorted_nodup _ (increasing_sorted _ HI)) as NDp. pose proof (proj1 (NoDup_count_occ Nat.eq_dec _) NDp h) as C. unfold sel.
            destruct (existsb (Nat.eqb h) (nth (w - 1) ps [])) eqn:Y.
            + apply existsb_In in Y. apply (count_occ_In Nat.eq_dec) in Y. replace (count_occ Nat.eq_dec (nth (w - 1) ps []) h) with 1 by lia. cbn [repeat map filter snd]. now rewrite Nat.eqb_refl.
            + apply existsb_false in Y. apply (count_occ_not_In Nat.eq_dec) in Y. rewrite Y. reflexivity.
          - cbn [orb]. replace (filter (fun c => Nat.eqb (snd c) w) (map (fun e => (h, e)) (repeat x (count_occ Nat.eq_dec (nth (x - 1) ps []) h)))) with (@nil (nat * nat)); [reflexivity|].
            induction (count_occ Nat.eq_dec (nth (x - 1) ps []) h) as [|c IHc]; [reflexivity|]. cbn [repeat map filter snd]. destruct (Nat.eqb_spec x w); [congruence|exact IHc]. }
        rewrite G by apply seq_NoDup. rewrite (proj2 (existsb_seq w _) Hw). reflexivity. }
      rewrite AN. destruct (sel h); reflexivity.
    - intros x Hx. destruct (Hh x (or_intror Hx)) as (X1 & X2 & X3). split; [exact X1|]. split; [exact X2|]. intros I. destruct (J3 _ I) as [C|[->|(p & C)]]; [contradiction|contradiction|]. now apply (NP x p). }
  rewrite (LOOP _ _ H).
  - cbn [connections]. unfold arriving at 1. cbn [filter map app]. apply sorted_same; [apply filter_sorted; rewrite D3; apply filter_sorted, seq_sorted|now apply increasing_sorted|]. intros u. rewrite filter_In. unfold sel. rewrite existsb_In. split; [tauto|].
    intros I. split; [|exact I]. rewrite D3. apply filter_In. split; [apply in_seq; specialize (D4 _ _ I); lia|now apply HA].
  - rewrite D3. apply NoDup_filter, seq_NoDup.
  - intros h Hh. rewrite D3 in Hh. apply filter_In in Hh as [Hh A]. apply in_seq in Hh. split; [exact A|]. split; [lia|intros []].
Qed.
