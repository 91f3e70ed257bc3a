(** The records of a description and what is read back from them. *)
From Coq Require Import Ascii String List Bool Arith NArith ZArith Reals Lia Lra Permutation.
From Flocq Require Import Core.
From Verif Require Import Chars Outcome Lines_Model Delimited_Model Delimited_Spec Delimited_Proofs Delimited_Props NumText_Model NumText_Proofs ModelFile_Model ModelFile_Spec ModelFile_Proofs.
Import ListNotations.
Open Scope nat_scope.

(** ** Properties of the vertices of a description *)
Lemma run_flags : forall cs o r b l d, Forall has_filters cs -> run cs (new_dsl o r b l) = Ok d -> Forall flags_ok (vertices d).
Proof.
  intros cs o r b l d H. apply (run_keeps has_filters flags_ok (fun _ => True)); auto; [|intros; eapply flags_set; eassumption|intros; now apply flags_edges|constructor].
  - intros c d0 d1 _ _ Hc E N. destruct (run_call_adds _ _ _ E N) as (v & G & F & Ev & _ & P & _). exists v. auto.
Qed.
Definition unfiltered_ok (v : vertex) : Prop := filters v = 0%N -> kernel_size v = 0%N /\ (producesOutput v = true -> node_type v = full).
Lemma run_kernels : forall cs o r b l d, Forall has_filters cs -> run cs (new_dsl o r b l) = Ok d -> Forall unfiltered_ok (vertices d).
Proof.
  intros cs o r b l d H. apply (run_keeps has_filters unfiltered_ok (fun _ => True)); auto; [| | |constructor].
  - intros c d0 d1 _ _ Hc E N. destruct (run_call_adds _ _ _ E N) as (v & G & F & Ev & _ & _ & _ & P). exists v. split; [exact G|]. split; [exact F|]. split; [exact Ev|]. intros Z. exact (P Hc Z).
  - intros s id v v' _ E P. destruct (core_set _ _ _ E) as [C _]. unfold core in C. injection C as C1 C2 C3 C4 C5 C6 C7 C8. unfold unfiltered_ok in *. now rewrite C1, C4, C7, C8.
  - now intros es [].
Qed.
Lemma run_inputs : forall cs o r b l d, joins_something cs -> run cs (new_dsl o r b l) = Ok d -> Forall (fun v => inputShapes v <> []) (vertices d).
Proof.
  intros cs o r b l d H. apply (run_keeps (fun c => c <> Add_concatenated []) (fun v => inputShapes v <> []) (fun _ => True)); auto; [| | | |constructor].
  - intros c d0 d1 _ _ Hc E N. destruct (run_call_adds _ _ _ E N) as (v & G & F & Ev & O & _). exists v. repeat split; auto.
    destruct O as [i v0 P A K C|i v0 P A K C|p i v0 P A K C|p v0 P A K C|A C]; unfold core in C; injection C as C1 C2 C3 C4 C5 C6 C7 C8; rewrite <- C5.
    + apply new_plain_ok in K as (_ & -> & _). discriminate.
    + apply new_filters_ok in K as (_ & -> & _). discriminate.
    + apply new_plain_ok in K as (_ & -> & _). discriminate.
    + apply new_filters_ok in K as (_ & -> & _). discriminate.
    + cbn. destruct c as [t i w f a|t i n k f a|p i w t f a|p n k t f a|pl|s id]; cbn [adds] in C5 |- *; try discriminate.
      * cbn [run_call] in E. unfold add_input in E. destruct (new_plain _ _ _ _ _ _) as [v1| |] eqn:K; cbn [obind] in E; try discriminate. exfalso.
        assert (V : nth_error (vertices d1) (length (vertices d0)) = Some v) by (rewrite G; now apply added_vertices). injection E as <-. cbn [vertices with_receptors add_vertex with_vertices] in V.
        rewrite nth_error_app2, Nat.sub_diag in V by lia. injection V as <-. apply new_plain_ok in K as (_ & _ & _ & _ & K & _). congruence.
      * cbn [run_call] in E. unfold add_input_filters in E. destruct (new_filters _ _ _ _ _ _ _) as [v1| |] eqn:K; cbn [obind] in E; try discriminate. exfalso.
        assert (V : nth_error (vertices d1) (length (vertices d0)) = Some v) by (rewrite G; now apply added_vertices). injection E as <-. cbn [vertices with_receptors add_vertex with_vertices] in V.
        rewrite nth_error_app2, Nat.sub_diag in V by lia. injection V as <-. apply new_filters_ok in K as (_ & _ & _ & _ & _ & K & _). congruence.
      * destruct pl; [now contradict Hc|discriminate].
      * now contradict N.
  - intros s id v v' _ E P. destruct (core_set _ _ _ E) as [C _]. unfold core in C. injection C as C1 C2 C3 C4 C5 C6 C7 C8. now rewrite C5.
  - now intros es [].
  - apply Forall_forall. intros c I ->. now apply H.
Qed.
Lemma joined_small : forall shapes, (joined_width shapes < 2 ^ 64)%N.
Proof.
  intros shapes. unfold joined_width. assert (G : forall l a, (a < 2 ^ 64)%N -> (fold_left (fun sum s => ((sum + width s) mod two64)%N) l a < 2 ^ 64)%N).
  { induction l as [|s l IH]; intros a Ha; cbn [fold_left]; [exact Ha|]. apply IH. apply N.mod_lt. discriminate. }
  now apply G.
Qed.
Lemma fits_default : fits15 5 /\ fits15 0 /\ fits15 (to_float (2 / 100)).
Proof.
  assert (V : Valid_exp (FLT_exp (-149) 24)) by (apply FLT_exp_valid; reflexivity).
  assert (B128 : (1000 < bpow radix2 128)%R). { rewrite <- (IZR_Zpower radix2 128) by lia. apply IZR_lt. reflexivity. }
  assert (B25 : (bpow radix2 (-25) < 1 / 1000)%R). { rewrite (bpow_opp radix2 25 : bpow radix2 (-25) = _). rewrite <- (IZR_Zpower radix2 25) by lia. unfold Rdiv. rewrite Rmult_1_l. apply Rinv_lt_contravar; [|apply IZR_lt; reflexivity].
    apply Rmult_lt_0_compat; apply IZR_lt; reflexivity. }
  split; [|split].
  - split; [|split].
    + apply generic_format_FLT. exists (Float radix2 5 0); [unfold F2R; cbn; lra|cbn; lia|cbn; lia].
    + rewrite Rabs_pos_eq by lra. lra.
    + right. rewrite Rabs_pos_eq by lra. lra.
  - split; [apply generic_format_0|]. rewrite Rabs_R0. split; [lra|now left].
  - unfold to_float. assert (P6 : bpow radix2 (-6) = (1 / 64)%R) by (rewrite (bpow_opp radix2 6 : bpow radix2 (-6) = _), <- (IZR_Zpower radix2 6) by lia; change (radix2 ^ 6)%Z with 64%Z; lra).
    assert (P5 : bpow radix2 (-5) = (1 / 32)%R) by (rewrite (bpow_opp radix2 5 : bpow radix2 (-5) = _), <- (IZR_Zpower radix2 5) by lia; change (radix2 ^ 5)%Z with 32%Z; lra).
    assert (L : (1 / 64 <= round radix2 (FLT_exp (-149) 24) ZnearestE (2 / 100))%R). { apply round_ge_generic; [exact V|apply valid_rnd_N| |lra]. rewrite <- P6. apply generic_format_bpow. unfold FLT_exp. lia. }
    assert (U : (round radix2 (FLT_exp (-149) 24) ZnearestE (2 / 100) <= 1 / 32)%R). { apply round_le_generic; [exact V|apply valid_rnd_N| |lra]. rewrite <- P5. apply generic_format_bpow. unfold FLT_exp. lia. }
    split; [apply generic_format_round; [exact V|apply valid_rnd_N]|]. rewrite Rabs_pos_eq by lra. split; [lra|right; lra].
Qed.
Lemma window_small : forall a k, (window_places a k < 2 ^ 64)%N.
Proof. intros a k. apply N.mod_lt. discriminate. Qed.
Lemma plain_machine : forall t i o f g a v, new_plain t i o f g a = Ok v -> size64 i -> size64 o -> machine v.
Proof.
  intros t i o f g a v H Hi Ho. destruct fits_default as (F5 & F0 & F2). unfold new_plain in H. destruct (f && negb (layer_eqb t full)); [discriminate|]. injection H as <-.
  constructor; cbn [inputShapes outputShape filters kernel_size bits norm_clipping_threshold dropout_rate regularization_strength length]; auto; reflexivity.
Qed.
Lemma filters_machine : forall t i n k f g a v, new_filters t i n k f g a = Ok v -> size64 i -> (n < 2 ^ 64)%N -> (k < 2 ^ 64)%N -> machine v.
Proof.
  intros t i n k f g a v H Hi Hn Hk. destruct fits_default as (F5 & F0 & F2). unfold new_filters in H. destruct (f && negb (layer_eqb t convolution2dValid)); [discriminate|]. injection H as <-.
  constructor; cbn [inputShapes outputShape filters kernel_size bits norm_clipping_threshold dropout_rate regularization_strength length]; auto; try reflexivity.
  destruct i as [[r c] x]. unfold size64. split; [apply window_small|]. split; [apply window_small|exact Hn].
Qed.
Lemma run_machine : forall cs o r b l d, Forall machine_values cs -> run cs (new_dsl o r b l) = Ok d -> Forall machine (vertices d).
Proof.
  intros cs o r b l d H. apply (run_keeps machine_values machine (fun _ => True)); auto; [|intros; eapply machine_set; eassumption|intros; now apply machine_edges|constructor].
  intros c d0 d1 _ M Hc E N. assert (SA : forall p v, nth_error (vertices d0) (p - 1) = Some v -> size64 (outputShape v)) by (intros p v Hv; apply nth_error_In in Hv; rewrite Forall_forall in M; apply (M _ Hv)).
  destruct (run_call_adds _ _ _ E N) as (v & G & F & Ev & _). exists v. split; [exact G|]. split; [exact F|]. split; [exact Ev|].
  assert (V : nth_error (vertices d1) (length (vertices d0)) = Some v) by (rewrite G; now apply added_vertices). destruct c as [t i w f a|t i n k f a|p i w t f a|p n k t f a|ps|s id]; cbn [run_call machine_values adds] in *.
  - unfold add_input in E. destruct (new_plain _ _ _ _ _ _) as [v1| |] eqn:K; cbn [obind] in E; try discriminate. injection E as <-. cbn [vertices with_receptors add_vertex with_vertices] in V.
    rewrite nth_error_app2, Nat.sub_diag in V by lia. injection V as <-. apply (plain_machine _ _ _ _ _ _ _ K); apply Hc.
  - unfold add_input_filters in E. destruct (new_filters _ _ _ _ _ _ _) as [v1| |] eqn:K; cbn [obind] in E; try discriminate. injection E as <-. cbn [vertices with_receptors add_vertex with_vertices] in V.
    rewrite nth_error_app2, Nat.sub_diag in V by lia. injection V as <-. apply (filters_machine _ _ _ _ _ _ _ _ K); apply Hc.
  - unfold add_layer in E. destruct (vertex_at d0 p) as [pv| |] eqn:Ep; cbn [obind] in E; try discriminate. destruct (new_plain _ _ _ _ _ _) as [v1| |] eqn:K; cbn [obind] in E; try discriminate.
    injection E as E. assert (G2 : d1 = added v1 [p] d0) by (rewrite <- E; unfold added; apply new_plain_ok in K as (_ & _ & _ & _ & -> & _); reflexivity).
    assert (V2 : nth_error (vertices d1) (length (vertices d0)) = Some v1) by (rewrite G2; apply added_vertices; [exact F|now apply new_plain_ok in K]). rewrite V in V2. injection V2 as ->.
    apply (plain_machine _ _ _ _ _ _ _ K); apply Hc.
  - unfold add_filters in E. destruct (vertex_at d0 p) as [pv| |] eqn:Ep; cbn [obind] in E; try discriminate. destruct (new_filters _ _ _ _ _ _ _) as [v1| |] eqn:K; cbn [obind] in E; try discriminate.
    injection E as E. assert (G2 : d1 = added v1 [p] d0) by (rewrite <- E; unfold added; apply new_filters_ok in K as (_ & _ & _ & _ & _ & -> & _); reflexivity).
    assert (V2 : nth_error (vertices d1) (length (vertices d0)) = Some v1) by (rewrite G2; apply added_vertices; [exact F|now apply new_filters_ok in K]). rewrite V in V2. injection V2 as ->.
    apply vertex_at_ok in Ep as [_ Ep]. apply (filters_machine _ _ _ _ _ _ _ _ K); [exact (SA _ _ Ep)|apply Hc|apply Hc].
  - unfold add_concatenated in E. destruct (omapM (vertex_at d0) ps) as [vs| |] eqn:K; cbn [obind] in E; try discriminate. destruct (omapM_vertices _ _ _ K) as [_ Mv]. cbv zeta in E. rewrite Mv in E.
    set (v1 := new_concat (map (shape_at (vertices d0)) ps) (1, joined_width (map (shape_at (vertices d0)) ps), 1)%N) in *.
    assert (G2 : d1 = added v1 ps d0) by (injection E as <-; reflexivity).
    assert (V2 : nth_error (vertices d1) (length (vertices d0)) = Some v1) by (rewrite G2; apply added_vertices; [exact F|reflexivity]). rewrite V in V2. injection V2 as ->.
    destruct fits_default as (F5 & F0 & F2). constructor; unfold v1; cbn [new_concat inputShapes outputShape filters kernel_size bits norm_clipping_threshold dropout_rate regularization_strength]; auto; try reflexivity.
    + apply Forall_forall. intros s Hs. apply in_map_iff in Hs as (p & <- & Hp). rewrite Forall_forall in F. specialize (F _ Hp). unfold shape_at. destruct (nth_error (vertices d0) (p - 1)) as [u|] eqn:Eu; [exact (SA _ _ Eu)|].
      apply nth_error_None in Eu. lia.
    + now rewrite map_length.
    + split; [reflexivity|]. split; [apply joined_small|reflexivity].
  - now contradict N.
Qed.

(** ** Building *)
Section Kids.
Context (f : nat -> building -> outcome building) (id : nat).
Fixpoint kids (es : list nat) (b : building) : outcome building :=
  match es with
  | [] => Ok b
  | e :: es => do b <- f e b; kids es {| built := built b; records := records b; connections := connections b ++ [(id, e)] |}
  end.
End Kids.
Lemma build_layer_S : forall fuel d id b, build_layer (S fuel) d id b =
  if existsb (Nat.eqb id) (built b) then Ok b
  else do v <- vertex_at d id; do _ <- construct v;
       do b <- kids (build_layer fuel d) id (edges v) {| built := id :: built b; records := records b ++ [vertex_record id v]; connections := connections b |};
       Ok (match edges v with [] => b | es => {| built := built b; records := records b ++ [edge_record id es]; connections := connections b |} end).
Proof. reflexivity. Qed.
Inductive row := Vrow (id : nat) | Erow (id : nat).
Definition edges_at (d : dsl) (id : nat) : list nat := match nth_error (vertices d) (id - 1) with Some v => edges v | None => [] end.
Definition feeding (d : dsl) (id : nat) : bool := match edges_at d id with [] => false | _ => true end.
Definition row_text (d : dsl) (r : row) : list str :=
  match r with
  | Vrow id => match nth_error (vertices d) (id - 1) with Some v => vertex_record id v | None => [] end
  | Erow id => edge_record id (edges_at d id)
  end.
(** What building some more vertices does. *)
Record grown (d : dsl) (b b' : building) (ns : list nat) : Prop := {
  gr_rows : exists rows, records b' = records b ++ map (row_text d) rows /\ Permutation rows (map Vrow ns ++ map Erow (filter (feeding d) ns));
  gr_built : Permutation (built b') (ns ++ built b);
  gr_nodup : NoDup (built b) -> NoDup (built b');
  gr_ok : forall n, In n ns -> exists v, vertex_at d n = Ok v /\ construct v = Ok tt /\ forall e, In e (edges v) -> In e (built b') }.
Lemma existsb_In : forall id l, existsb (Nat.eqb id) l = true <-> In id l.
Proof.
  intros id l. rewrite existsb_exists. split; [intros (x & I & E); apply Nat.eqb_eq in E; now subst|intros I; exists id; split; [exact I|apply Nat.eqb_refl]].
Qed.
Lemma grown_incl : forall d b b' ns x, grown d b b' ns -> In x (built b) -> In x (built b').
Proof. intros d b b' ns x [_ P _ _] I. eapply Permutation_in; [symmetry; exact P|]. apply in_or_app. now right. Qed.
Lemma build_layer_grows : forall d fuel id b b', build_layer fuel d id b = Ok b' -> exists ns, grown d b b' ns /\ In id (built b').
Proof.
  intros d. induction fuel as [|fuel IH]; intros id b b' H; [discriminate|]. rewrite build_layer_S in H. destruct (existsb (Nat.eqb id) (built b)) eqn:X.
  - injection H as <-. exists []. split; [|now apply existsb_In]. constructor; cbn; auto. + exists []. now rewrite app_nil_r. + intros n [].
  - assert (NI : ~ In id (built b)) by (rewrite <- existsb_In; congruence). clear X.
    destruct (vertex_at d id) as [v| |] eqn:Ev; cbn [obind] in H; try discriminate. destruct (construct v) as [[]| |] eqn:Ec; cbn [obind] in H; try discriminate.
    set (b0 := {| built := id :: built b; records := records b ++ [vertex_record id v]; connections := connections b |}) in *.
    destruct (kids (build_layer fuel d) id (edges v) b0) as [b1| |] eqn:Ek; cbn [obind] in H; try discriminate.
    assert (K : forall es b0 b1, kids (build_layer fuel d) id es b0 = Ok b1 -> exists ns, grown d b0 b1 ns /\ forall e, In e es -> In e (built b1)).
    { clear - IH. induction es as [|e es IHe]; intros b0 b1 H; cbn [kids] in H.
      - injection H as <-. exists []. split; [|intros e []]. constructor; cbn; auto. + exists []. now rewrite app_nil_r. + intros n [].
      - destruct (build_layer fuel d e b0) as [b2| |] eqn:E; cbn [obind] in H; try discriminate. destruct (IH _ _ _ E) as (ns1 & G1 & I1). destruct (IHe _ _ H) as (ns2 & G2 & I2).
        assert (GI := grown_incl _ _ _ _ e G2 I1). assert (GJ : forall x, In x (built b2) -> In x (built b1)) by (intros x Hx; exact (grown_incl _ _ _ _ x G2 Hx)).
        destruct G1 as [(r1 & R1 & P1) B1 N1 O1], G2 as [(r2 & R2 & P2) B2 N2 O2]. cbn [built records connections] in *. exists (ns1 ++ ns2). split.
        + constructor.
          * exists (r1 ++ r2). split; [rewrite R2, R1, map_app, app_assoc; reflexivity|]. rewrite P1, P2, filter_app, !map_app, <- !app_assoc. apply Permutation_app_head. rewrite !app_assoc. apply Permutation_app_tail. apply Permutation_app_comm.
          * rewrite B2, B1, !app_assoc. apply Permutation_app_tail. apply Permutation_app_comm.
          * auto.
          * intros n Hn. apply in_app_or in Hn as [Hn|Hn]; [|auto]. destruct (O1 _ Hn) as (u & U1 & U2 & U3). exists u. repeat split; auto.
        + intros x [<-|Hx]; auto. }
    destruct (K _ _ _ Ek) as (ns & [(r & R & P) B N O] & I). unfold b0 in *. cbn [built records connections] in *. clear K.
    apply vertex_at_ok in Ev as [Hid Ev]. assert (EA : edges_at d id = edges v) by (unfold edges_at; now rewrite Ev).
    exists (id :: ns). assert (Q : built b' = built b1) by (destruct (edges v); injection H as <-; reflexivity). split.
    + constructor; rewrite ?Q.
      * cbn [map filter]. destruct (feeding d id) eqn:Fe; unfold feeding in Fe; rewrite EA in Fe; destruct (edges v) as [|e es] eqn:Es; try discriminate; injection H as <-; cbn [records].
        -- exists (Vrow id :: r ++ [Erow id]). rewrite R. split.
           ++ cbn [map row_text]. rewrite Ev, map_app, <- !app_assoc. cbn [map row_text app]. rewrite EA. reflexivity.
           ++ cbn [app map]. apply perm_skip. rewrite P, <- app_assoc. apply Permutation_app_head. apply Permutation_sym, Permutation_cons_append.
        -- exists (Vrow id :: r). rewrite R. split; [cbn [map row_text]; rewrite Ev, <- app_assoc; reflexivity|]. cbn [app map]. now apply perm_skip.
      * rewrite B. cbn [app]. apply Permutation_sym, Permutation_middle.
      * intros ND. apply N. now constructor.
      * intros n [<-|Hn]; [|auto]. exists v. split; [apply vertex_at_ok; auto|]. split; [exact Ec|]. exact I.
    + rewrite Q. eapply Permutation_in; [symmetry; exact B|]. apply in_or_app. right. now left.
Qed.
Definition header (d : dsl) : list (list str) :=
  [[lit "optimizer"; optimizerTypeToString (optimizer d)]; [lit "learningRate"; asString_float (learningRate d)];
   [lit "biasLearningRate"; asString_float (biasLearningRate d)]; [lit "loss"; lossTypeToString (loss d)]].
Lemma build_grows : forall d b, build d = Ok b -> exists ns, grown d {| built := []; records := header d; connections := [] |} b ns /\ forall h, In h (inputReceptors d) -> In h (built b).
Proof.
  intros d b H. unfold build in H. cbv zeta in H. fold (header d) in H. generalize (S (length (vertices d))) H. clear H. intros fuel H.
  assert (K : forall hs b0, fold_left (fun b head => do b <- b; build_layer fuel d head b) hs (Ok b0) = Ok b -> exists ns, grown d b0 b ns /\ forall h, In h hs -> In h (built b)).
  { clear H. induction hs as [|h hs IH]; intros b0 H; cbn [fold_left obind] in H.
    - injection H as <-. exists []. split; [|intros e []]. constructor; cbn; auto. + exists []. now rewrite app_nil_r. + intros n [].
    - destruct (build_layer fuel d h b0) as [b2| |] eqn:E.
      + destruct (build_layer_grows _ _ _ _ _ E) as (ns1 & G1 & I1). destruct (IH _ H) as (ns2 & G2 & I2). assert (GI := grown_incl _ _ _ _ h G2 I1).
        assert (GJ : forall x, In x (built b2) -> In x (built b)) by (intros x Hx; exact (grown_incl _ _ _ _ x G2 Hx)).
        destruct G1 as [(r1 & R1 & P1) B1 N1 O1], G2 as [(r2 & R2 & P2) B2 N2 O2]. exists (ns1 ++ ns2). split.
        * constructor.
          -- exists (r1 ++ r2). split; [rewrite R2, R1, map_app, app_assoc; reflexivity|]. rewrite P1, P2, filter_app, !map_app, <- !app_assoc. apply Permutation_app_head. rewrite !app_assoc. apply Permutation_app_tail. apply Permutation_app_comm.
          -- rewrite B2, B1, !app_assoc. apply Permutation_app_tail. apply Permutation_app_comm.
          -- auto.
          -- intros n Hn. apply in_app_or in Hn as [Hn|Hn]; [|auto]. destruct (O1 _ Hn) as (u & U1 & U2 & U3). exists u. repeat split; auto.
        * intros x [<-|Hx]; auto.
      + exfalso. assert (Z : forall l, fold_left (fun b head => do b <- b; build_layer fuel d head b) l (@Throw building) = Throw) by (induction l; auto). rewrite Z in H. discriminate.
      + exfalso. assert (Z : forall l, fold_left (fun b head => do b <- b; build_layer fuel d head b) l (@UB building) = UB) by (induction l; auto). rewrite Z in H. discriminate. }
  exact (K _ _ H).
Qed.
(** Every vertex is built, once. *)
Lemma build_rows : forall ps d b, described ps d -> (forall i v, nth_error (vertices d) i = Some v -> nth i ps [] = [] -> acceptsInput v = true) -> build d = Ok b ->
  (exists rows, records b = header d ++ map (row_text d) rows /\ Permutation rows (map Vrow (seq 1 (length (vertices d))) ++ map Erow (filter (feeding d) (seq 1 (length (vertices d)))))) /\
  Permutation (built b) (seq 1 (length (vertices d))) /\ Forall (fun v => construct v = Ok tt) (vertices d).
Proof.
  intros ps d b [D1 D2 D3 D4 D5] HI H. destruct (build_grows _ _ H) as (ns & [(rows & R & P) B N O] & Hh). cbn [built records] in *. rewrite app_nil_r in B. specialize (N (NoDup_nil _)).
  assert (ALL : forall id, 1 <= id <= length (vertices d) -> In id (built b)).
  { intros id. induction id as [id IH] using lt_wf_ind. intros Hid. destruct (nth_error (vertices d) (id - 1)) as [v|] eqn:Ev; [|apply nth_error_None in Ev; lia].
    destruct (nth (id - 1) ps []) as [|p pl] eqn:Ep.
    - apply Hh. rewrite D3. apply filter_In. split; [apply in_seq; lia|]. unfold accepting. rewrite Ev. exact (HI _ _ Ev Ep).
    - assert (Ip : In p (nth (id - 1) ps [])) by (rewrite Ep; now left). pose proof (D4 _ _ Ip) as Hp. assert (Bp : In p (built b)) by (apply IH; lia).
      assert (Np : In p ns) by (eapply Permutation_in; [exact B|exact Bp]). destruct (O _ Np) as (u & U1 & _ & U3). apply U3. apply vertex_at_ok in U1 as [_ U1]. rewrite (D2 _ _ U1).
      apply in_adopted. split; [lia|]. now replace (S (p - 1)) with p by lia. }
  assert (PB : Permutation (built b) (seq 1 (length (vertices d)))).
  { apply NoDup_Permutation; [exact N|apply seq_NoDup|]. intros x. split.
    - intros Hx. assert (Nx : In x ns) by (eapply Permutation_in; [exact B|exact Hx]). destruct (O _ Nx) as (u & U1 & _). apply vertex_at_ok in U1 as [U1 _]. apply in_seq. lia.
    - intros Hx%in_seq. apply ALL. lia. }
  assert (PN : Permutation ns (seq 1 (length (vertices d)))) by (rewrite <- B; exact PB).
  assert (PF : forall (f : nat -> bool) l l', Permutation l l' -> Permutation (filter f l) (filter f l')).
  { intros f l l' Q. induction Q; cbn [filter]; [constructor|destruct (f x); [now apply perm_skip|exact IHQ]|destruct (f y), (f x); try apply perm_swap; apply Permutation_refl|etransitivity; eassumption]. }
  split; [|split; [exact PB|]].
  - exists rows. split; [exact R|]. rewrite P. apply Permutation_app; apply Permutation_map; [exact PN|]. apply PF. exact PN.
  - apply Forall_forall. intros v Hv. apply In_nth_error in Hv as [i Hi]. assert (i < length (vertices d)) by (apply nth_error_Some; congruence).
    assert (Ni : In (S i) ns) by (eapply Permutation_in; [symmetry; exact PN|apply in_seq; lia]). destruct (O _ Ni) as (u & U1 & U2 & _). apply vertex_at_ok in U1 as [_ U1]. replace (S i - 1) with i in U1 by lia. congruence.
Qed.
(** Building does not run forever, nor into an unset pointer. *)
Lemma build_layer_ends : forall ps d, described ps d -> forall fuel id b, 1 <= id <= length (vertices d) -> length (vertices d) - id < fuel ->
  build_layer fuel d id b <> UB /\ (Forall (fun v => construct v = Ok tt) (vertices d) -> exists b', build_layer fuel d id b = Ok b').
Proof.
  intros ps d [D1 D2 D3 D4 D5]. induction fuel as [|fuel IH]; intros id b Hid Hf; [lia|]. rewrite build_layer_S. destruct (existsb (Nat.eqb id) (built b)); [split; [discriminate|eauto]|].
  destruct (nth_error (vertices d) (id - 1)) as [v|] eqn:Ev; [|apply nth_error_None in Ev; lia]. assert (VA : vertex_at d id = Ok v) by now apply vertex_at_ok. rewrite VA. cbn [obind].
  assert (CU : construct v <> UB). { unfold construct. destruct (node_type v); try discriminate; repeat match goal with |- context [match ?x with _ => _ end] => destruct x end; discriminate. }
  assert (K : forall es b0, (forall e, In e es -> id < e <= length (vertices d)) -> kids (build_layer fuel d) id es b0 <> UB /\ (Forall (fun v => construct v = Ok tt) (vertices d) -> exists b', kids (build_layer fuel d) id es b0 = Ok b')).
  { induction es as [|e es IHe]; intros b0 He; cbn [kids]; [split; [discriminate|eauto]|]. assert (He0 := He e (or_introl eq_refl)). destruct (IH e b0 ltac:(lia) ltac:(lia)) as [A1 A2].
    assert (He1 : forall x, In x es -> id < x <= length (vertices d)) by (intros x Hx; apply He; now right).
    destruct (build_layer fuel d e b0) as [b2| |] eqn:E; cbn [obind].
    - apply IHe. exact He1.
    - split; [discriminate|]. intros F. destruct (A2 F) as [? ?]. discriminate.
    - now contradict A1. }
  assert (ED : forall e, In e (edges v) -> id < e <= length (vertices d)).
  { intros e He. rewrite (D2 _ _ Ev) in He. apply in_adopted in He as [He Hp]. specialize (D4 _ _ Hp). lia. }
  destruct (construct v) as [[]| |] eqn:Ec; cbn [obind]; [|split; [discriminate|]|now contradict CU].
  - destruct (K (edges v) {| built := id :: built b; records := records b ++ [vertex_record id v]; connections := connections b |} ED) as [A1 A2].
    destruct (kids _ _ _ _) as [b2| |] eqn:E; cbn [obind]; [split; [discriminate|eauto]|split; [discriminate|]|now contradict A1]. intros F. destruct (A2 F) as [? ?]. discriminate.
  - intros F. rewrite Forall_forall in F. rewrite (F v) in Ec by (eapply nth_error_In; exact Ev). discriminate.
Qed.
Lemma build_ends : forall ps d, described ps d -> build d <> UB /\ (Forall (fun v => construct v = Ok tt) (vertices d) -> exists b, build d = Ok b).
Proof.
  intros ps d D. unfold build. cbv zeta. fold (header d).
  assert (G : forall hs, (forall h, In h hs -> 1 <= h <= length (vertices d)) -> forall b0, let f := fold_left (fun b head => do b <- b; build_layer (S (length (vertices d))) d head b) hs (Ok b0) in
    f <> UB /\ (Forall (fun v => construct v = Ok tt) (vertices d) -> exists b, f = Ok b)).
  { induction hs as [|h hs IH]; intros Hh b0; cbn [fold_left obind]; [split; [discriminate|eauto]|]. assert (Hh0 := Hh h (or_introl eq_refl)).
    destruct (build_layer_ends ps d D (S (length (vertices d))) h b0 Hh0 ltac:(lia)) as [A1 A2].
    assert (Z : forall l, fold_left (fun b head => do b <- b; build_layer (S (length (vertices d))) d head b) l (@Throw building) = Throw) by (induction l; auto).
    destruct (build_layer _ d h b0) as [b2| |] eqn:E.
    - apply IH. intros x Hx. apply Hh. now right.
    - rewrite Z. split; [discriminate|]. intros F. destruct (A2 F) as [? ?]. discriminate.
    - now contradict A1. }
  apply G. intros h Hh. rewrite (de_heads _ _ D) in Hh. apply filter_In in Hh as [Hh _]. apply in_seq in Hh. lia.
Qed.
