From Coq Require Import Ascii String List Bool Arith NArith ZArith Lia.
From Verif Require Import Chars Outcome Delimited_Model Lexer_Model Literal_Model Parser_Model Parser_Spec.
Import ListNotations.

Lemma is_label_true l t : is_label l t = true <-> kind l t.
Proof. unfold is_label, kind. apply String.eqb_eq. Qed.
Lemma is_label_false l t : is_label l t = false <-> ~ kind l t.
Proof. rewrite <- is_label_true. destruct (is_label l t); split; congruence. Qed.
Lemma is_value_true l t : is_value l t = true <-> says l t.
Proof. unfold is_value, says. destruct (seq_eqb_spec (value t) (lit l)); split; congruence. Qed.
Lemma is_value_false l t : is_value l t = false <-> ~ says l t.
Proof. rewrite <- is_value_true. destruct (is_value l t); split; congruence. Qed.

Lemma kind_excl {l1 l2 t} : kind l1 t -> kind l2 t -> l1 = l2.
Proof. unfold kind. congruence. Qed.

(** *** stoi *)
Lemma lstrip_split s : exists w, s = w ++ lstrip s /\ Forall (fun c => isspace c = true) w /\
  (forall c r, lstrip s = c :: r -> isspace c = false).
Proof.
  induction s as [|c s IH]; [exists []; repeat split; [constructor|discriminate]|]. cbn [lstrip].
  destruct (isspace c) eqn:E.
  - destruct IH as (w & H1 & H2 & H3). exists (c :: w). split; [cbn; congruence|]. split; [constructor; assumption|exact H3].
  - exists []. repeat split; [constructor|]. intros d r H. congruence.
Qed.
Lemma lstrip_app w s : Forall (fun c => isspace c = true) w -> (forall c r, s = c :: r -> isspace c = false) -> lstrip (w ++ s) = s.
Proof.
  intros Hw Hs. induction Hw as [|c w Hc Hw IH].
  - destruct s as [|c s]; [reflexivity|]. cbn [app lstrip]. rewrite (Hs c s eq_refl). reflexivity.
  - cbn [app lstrip]. rewrite Hc. exact IH.
Qed.

Lemma digits_value_spec s acc v :
  digits_value acc s = Some v <->
  exists ds r, s = ds ++ r /\ ds <> [] /\ Forall (fun c => isdigit c = true) ds /\ (forall c r', r = c :: r' -> isdigit c = false) /\
    v = fold_left (fun acc c => acc * 10 + (Z.of_N (code c) - 48))%Z ds acc.
Proof.
  revert acc v. induction s as [|c s IH]; intros acc v.
  - cbn. split; [discriminate|]. intros (ds & r & E & N & _). destruct ds; [congruence|discriminate].
  - cbn [digits_value]. destruct (isdigit c) eqn:Ec.
    2:{ split; [discriminate|]. intros (ds & r & E & N & F & _). destruct ds as [|d ds]; [congruence|]. injection E as -> ->.
        inversion F; congruence. }
    cbv zeta. destruct s as [|d s].
    + split.
      * intro E. injection E as <-. exists [c], []. repeat split; [discriminate|repeat constructor; assumption|discriminate].
      * intros (ds & r & E & N & F & R & ->). destruct ds as [|x ds]; [congruence|]. injection E as <- E.
        symmetry in E. apply app_eq_nil in E as [-> ->]. reflexivity.
    + destruct (isdigit d) eqn:Ed.
      * rewrite IH. split.
        -- intros (ds & r & E & N & F & R & ->). exists (c :: ds), r. repeat split; [cbn; congruence|discriminate|constructor; assumption|exact R].
        -- intros (ds & r & E & N & F & R & ->). destruct ds as [|x ds]; [congruence|]. injection E as <- E.
           inversion F as [|? ? _ F']; subst. exists ds, r. repeat split; auto.
           destruct ds; [|discriminate]. cbn in E. subst r. specialize (R d s eq_refl). congruence.
      * split.
        -- intro E. injection E as <-. exists [c], (d :: s). repeat split; [discriminate|repeat constructor; assumption|].
           intros x r' E. congruence.
        -- intros (ds & r & E & N & F & R & ->). destruct ds as [|x ds]; [congruence|]. injection E as <- E.
           destruct ds as [|y ds]; [reflexivity|]. injection E as <- E. inversion F as [|? ? _ F']; subst. inversion F'; congruence.
Qed.

Lemma digit_not_sign c : isdigit c = true -> isspace c = false /\ ceq c "-" = false /\ ceq c "+" = false.
Proof.
  intro H. destruct (ceq_spec c "-") as [->|]; [discriminate|]. destruct (ceq_spec c "+") as [->|]; [discriminate|].
  repeat split. revert H. unfold isdigit, isspace. destruct c as [[] [] [] [] [] [] [] []]; cbn; congruence.
Qed.

Lemma stoi_spec s z : stoi s = Some z <-> int_text s z.
Proof.
  unfold stoi, int_text. cbv zeta. split.
  - destruct (lstrip_split s) as (w & E & Hw & Hs). set (u := lstrip s) in *. clearbody u.
    intro H. assert (exists g f ds r, u = g ++ ds ++ r /\ sign_text g f /\ ds <> [] /\ Forall (fun c => isdigit c = true) ds /\
      (forall c r', r = c :: r' -> isdigit c = false) /\ z = f (decimal ds) /\ (- 2 ^ 31 <= z < 2 ^ 31)%Z) as G.
    { destruct u as [|c u]; [discriminate|]. destruct (ceq_spec c "-") as [->|N1]; [|destruct (ceq_spec c "+") as [->|N2]]; cbn [orb] in H.
      - destruct (digits_value 0 u) as [v|] eqn:D; [|discriminate]. apply digits_value_spec in D as (ds & r & -> & N & F & R & ->).
        destruct (_ && _)%bool eqn:B in H; [|discriminate]. injection H as <-. exists ["-"%char], Z.opp, ds, r.
        repeat split; auto; try constructor; apply andb_prop in B as [B1 B2]; [apply Z.leb_le, B1|apply Z.ltb_lt, B2].
      - destruct (digits_value 0 u) as [v|] eqn:D; [|discriminate]. apply digits_value_spec in D as (ds & r & -> & N & F & R & ->).
        destruct (_ && _)%bool eqn:B in H; [|discriminate]. injection H as <-. exists ["+"%char], (fun z => z), ds, r.
        repeat split; auto; try constructor; apply andb_prop in B as [B1 B2]; [apply Z.leb_le, B1|apply Z.ltb_lt, B2].
      - destruct (digits_value 0 (c :: u)) as [v|] eqn:D; [|discriminate]. apply digits_value_spec in D as (ds & r & -> & N & F & R & ->).
        destruct (_ && _)%bool eqn:B in H; [|discriminate]. injection H as <-. exists [], (fun z => z), ds, r.
        repeat split; auto; try constructor; apply andb_prop in B as [B1 B2]; [apply Z.leb_le, B1|apply Z.ltb_lt, B2]. }
    destruct G as (g & f & ds & r & -> & G). exists w, g, f, ds, r. split; [exact E|]. split; [exact Hw|exact G].
  - intros (w & g & f & ds & r & -> & Hw & Hg & N & F & R & -> & B).
    assert (D : digits_value 0 (ds ++ r) = Some (decimal ds)) by (apply digits_value_spec; exists ds, r; auto).
    destruct ds as [|d ds]; [congruence|]. assert (Hd : isdigit d = true) by (inversion F; assumption).
    destruct (digit_not_sign d Hd) as (S1 & S2 & S3).
    assert (B' : forall v, (- 2 ^ 31 <= v < 2 ^ 31)%Z -> ((- 2 ^ 31 <=? v) && (v <? 2 ^ 31))%Z = true).
    { intros v Hv. apply andb_true_intro. split; [apply Z.leb_le|apply Z.ltb_lt]; apply Hv. }
    rewrite lstrip_app; [|exact Hw|].
    2:{ intros c r' E. destruct Hg; cbn in E; injection E as <- _; [exact S1| |]; reflexivity. }
    destruct Hg; cbn [app] in *.
    + rewrite S2, S3. cbn [orb]. rewrite D, (B' _ B). reflexivity.
    + change (ceq "+" "-") with false. change (ceq "+" "+") with true. cbn [orb]. rewrite D, (B' _ B). reflexivity.
    + change (ceq "-" "-") with true. cbn [orb]. rewrite D, (B' _ B). reflexivity.
Qed.

Notation st b a := {| before := b; after := a |}.

Lemma parseNextNumber_val b a z s' :
  parseNextNumber (st b a) = PVal z s' <-> exists t r, a = t :: r /\ int_token t z /\ s' = st (t :: b) r.
Proof.
  unfold parseNextNumber, next, int_token. cbn [after before previous hd_error]. destruct a as [|t r].
  - unfold previous. cbn. destruct b; cbn; (split; [discriminate|intros (? & ? & ? & _); discriminate]).
  - cbn. destruct (stoi (value t)) as [v|] eqn:E.
    + split.
      * intro H. injection H as <- <-. exists t, r. repeat split. apply stoi_spec, E.
      * intros (t' & r' & H & I & ->). injection H as <- <-. apply stoi_spec in I. congruence.
    + split; [discriminate|]. intros (t' & r' & H & I & ->). injection H as <- <-. apply stoi_spec in I. congruence.
Qed.

Lemma nn t z b r : int_token t z -> parseNextNumber (st b (t :: r)) = PVal z (st (t :: b) r).
Proof. intro H. apply parseNextNumber_val. eauto. Qed.

Ltac cbp := cbn [hasNext next peek consume pbind after before negb andb orb List.length Nat.leb previous hd_error generateError].
Ltac cbpi H := cbn [hasNext next peek consume pbind after before negb andb orb List.length Nat.leb previous hd_error generateError] in H.
Ltac lab H := rewrite (proj2 (is_label_true _ _) H).
Ltac lab_in G H := rewrite (proj2 (is_label_true _ _) H) in G; cbpi G.
Ltac labn H := rewrite (proj2 (is_label_false _ _) H).
Ltac kn := let E := fresh in intro E; match goal with H : kind _ _ |- _ => pose proof (kind_excl E H); discriminate end.

Definition mk_group (id : Z) (use : str) (ty la : token) (r c ch n : Z) : group :=
  {| g_id := id; g_use := use; g_type := value ty; g_label := value la;
     g_rows := r mod 2 ^ 64; g_columns := c mod 2 ^ 64; g_channels := ch mod 2 ^ 64; g_start := n mod 2 ^ 64;
     g_count := (r * c * ch) mod 2 ^ 64 |}%Z.
Lemma count_mod r c ch : to_size_t (to_size_t r * to_size_t c * to_size_t ch) = ((r * c * ch) mod 2 ^ 64)%Z.
Proof.
  unfold to_size_t. rewrite Zmult_mod_idemp_r. rewrite <- (Zmult_mod_idemp_l (r mod 2 ^ 64 * _)), <- Zmult_mod, Zmult_mod_idemp_l. reflexivity.
Qed.

Lemma parseColumnGroup_complete id u b ty la ds at_ i r x y z n :
  dimensions ds x y z -> kind "_at" at_ -> int_token i n ->
  parseColumnGroup id u (st b (ty :: la :: ds ++ at_ :: i :: r)) =
  PVal (mk_group id u ty la x y z n) (st (rev (ty :: la :: ds ++ [at_; i]) ++ b) r).
Proof.
  intros D A I. unfold parseColumnGroup, parseDimensions, mk_group. rewrite <- count_mod.
  destruct D as [|o a cl x Ho Ia Hc|o a k1 b' cl x y Ho Ia H1 Ib Hc|o a k1 b' k2 c cl x y z Ho Ia H1 Ib H2 Ic Hc];
    cbn [app rev]; cbp.
  - unfold kind in A. rewrite A. cbn [String.eqb Ascii.eqb Bool.eqb andb]. cbp. rewrite (nn _ _ _ _ I). cbp. reflexivity.
  - unfold kind in Ho. rewrite Ho. rewrite String.eqb_refl. cbp. rewrite (nn _ _ _ _ Ia). cbp. lab Hc. cbp.
    unfold kind in A. rewrite A, String.eqb_refl. cbp. rewrite (nn _ _ _ _ I). cbp. reflexivity.
  - unfold kind in Ho. rewrite Ho. rewrite String.eqb_refl. cbp. rewrite (nn _ _ _ _ Ia). cbp.
    replace (is_label "_close_parenthesis" k1) with false by (symmetry; apply is_label_false; kn). lab H1. cbp.
    rewrite (nn _ _ _ _ Ib). cbp. lab Hc. cbp.
    unfold kind in A. rewrite A, String.eqb_refl. cbp. rewrite (nn _ _ _ _ I). cbp. reflexivity.
  - unfold kind in Ho. rewrite Ho. rewrite String.eqb_refl. cbp. rewrite (nn _ _ _ _ Ia). cbp.
    replace (is_label "_close_parenthesis" k1) with false by (symmetry; apply is_label_false; kn). lab H1. cbp.
    rewrite (nn _ _ _ _ Ib). cbp.
    replace (is_label "_close_parenthesis" k2) with false by (symmetry; apply is_label_false; kn). lab H2. cbp.
    rewrite (nn _ _ _ _ Ic). cbp. lab Hc. cbp.
    unfold kind in A. rewrite A, String.eqb_refl. cbp. rewrite (nn _ _ _ _ I). cbp. reflexivity.
Qed.

Ltac num H := match type of H with context [parseNextNumber ?x] =>
   let E := fresh "En" in destruct (parseNextNumber x) eqn:E; cbpi H; try discriminate;
   apply parseNextNumber_val in E; destruct E as (? & ? & E & ? & ->) end.

Lemma is_at l t : (String.eqb "_at" l = true) -> l = label t -> kind "_at" t.
Proof. intros H E. apply String.eqb_eq in H. unfold kind. congruence. Qed.

Lemma parseColumnGroup_sound id u b a g s' :
  parseColumnGroup id u (st b a) = PVal g s' ->
  exists ty la ds at_ i r x y z n, a = ty :: la :: ds ++ at_ :: i :: r /\ dimensions ds x y z /\ kind "_at" at_ /\ int_token i n /\
    g = mk_group id u ty la x y z n /\ s' = st (rev (ty :: la :: ds ++ [at_; i]) ++ b) r.
Proof.
  unfold parseColumnGroup. intro H. destruct a as [|ty a]; cbpi H; [destruct b; discriminate|].
  destruct a as [|la a]; cbpi H; [discriminate|]. destruct a as [|t a]; cbpi H; [discriminate|].
  destruct (parseDimensions _ _) as [[[[x y] z] l] s1| | | | |] eqn:D in H; cbpi H; try discriminate.
  assert (exists ds r at_, t :: a = ds ++ at_ :: r /\ dimensions ds x y z /\ l = label at_ /\ s1 = st (at_ :: rev ds ++ la :: ty :: b) r) as G.
  { unfold parseDimensions in D. destruct (String.eqb "_open_parenthesis" (label t)) eqn:O.
    2:{ cbpi D. injection D as <- <- <- <- <-. exists [], a, t. repeat split. constructor. }
    apply String.eqb_eq in O. symmetry in O. destruct a as [|i1 a]; cbpi D.
    { injection D as <- <- <- <- <-. exists [], [], t. repeat split. constructor. }
    num D. injection En as <- <-. destruct a as [|c1 a]; cbpi D; [discriminate|].
    destruct (is_label "_close_parenthesis" c1) eqn:C1.
    { destruct a as [|at_ a]; cbpi D; [discriminate|]. injection D as <- <- <- <- <-. exists [t; i1; c1], a, at_. repeat split.
      apply dims_columns; [exact O|assumption|apply is_label_true, C1]. }
    destruct (is_label "_comma" c1) eqn:M1; cbpi D; [|discriminate]. destruct a as [|i2 a]; cbpi D; [discriminate|].
    num D. injection En as <- <-. destruct a as [|c2 a]; cbpi D; [discriminate|].
    destruct (is_label "_close_parenthesis" c2) eqn:C2.
    { destruct a as [|at_ a]; cbpi D; [discriminate|]. injection D as <- <- <- <- <-. exists [t; i1; c1; i2; c2], a, at_. repeat split.
      apply dims_rows; [exact O|assumption|apply is_label_true, M1|assumption|apply is_label_true, C2]. }
    destruct (is_label "_comma" c2) eqn:M2; cbpi D; [|discriminate]. destruct a as [|i3 a]; cbpi D; [discriminate|].
    num D. injection En as <- <-. destruct a as [|c3 a]; cbpi D; [discriminate|].
    destruct (is_label "_close_parenthesis" c3) eqn:C3; cbpi D; [|discriminate].
    destruct a as [|at_ a]; cbpi D; [discriminate|]. injection D as <- <- <- <- <-.
    exists [t; i1; c1; i2; c2; i3; c3], a, at_. repeat split.
    apply dims_channels; try assumption; apply is_label_true; assumption. }
  destruct G as (ds & r & at_ & E & Dm & -> & ->). destruct (String.eqb "_at" (label at_)) eqn:A; cbpi H.
  2:{ discriminate. }
  destruct r as [|i r]; cbpi H; [discriminate|]. num H. injection En as <- <-. injection H as <- <-.
  exists ty, la, ds, at_, i, r, x, y, z. eexists. split; [rewrite E; reflexivity|]. split; [exact Dm|].
  split; [eapply is_at; eauto|]. split; [eassumption|]. split; [unfold mk_group; rewrite <- count_mod; reflexivity|].
  cbn [rev]. rewrite rev_app_distr. cbn [rev app]. rewrite <- !app_assoc. reflexivity.
Qed.

Lemma snoc_len {A} (l : list A) x : List.length (l ++ [x]) = S (List.length l).
Proof. rewrite app_length. cbn. lia. Qed.
Lemma not_starts P (ts : list token) : ~ starts_with P ts -> match ts with t :: _ => ~ P t | [] => True end.
Proof. destruct ts as [|t r]; [trivial|]. intros H Pt. apply H. exists t, r. auto. Qed.
Lemma starts_nil P : ~ starts_with P [].
Proof. intros (? & ? & ? & _). discriminate. Qed.
Lemma starts_cons (P : token -> Prop) t r : ~ P t -> ~ starts_with P (t :: r).
Proof. intros H (? & ? & E & ?). injection E as <- <-. auto. Qed.

Ltac norm_rev := repeat (progress (cbn [rev app]) || rewrite rev_app_distr || rewrite <- app_assoc); reflexivity.
Ltac sp := repeat match goal with |- _ /\ _ => split end; try reflexivity.

(** *** create dataset: clauses *)
Lemma dataset_with_sound k h gs b a h' gs' s' :
  dataset_with_loop k h gs (st b a) = PVal (h', gs') s' ->
  exists ts r hb new, a = ts ++ r /\ dataset_clauses (List.length gs) ts hb new /\ h' = (h || hb)%bool /\ gs' = gs ++ new /\
    s' = st (rev ts ++ b) r /\ ~ starts_with (kind "_with") r.
Proof.
  revert h gs b a. induction k as [|k IH]; intros h gs b a H; [discriminate|]. cbn [dataset_with_loop] in H.
  destruct a as [|w a]; cbpi H.
  { injection H as <- <- <-. exists [], [], false, []. rewrite orb_false_r, (app_nil_r gs). sp; [constructor|apply starts_nil]. }
  destruct (is_label "_with" w) eqn:W; cbpi H.
  2:{ injection H as <- <- <-. exists [], (w :: a), false, []. rewrite orb_false_r, (app_nil_r gs). sp; [constructor|].
      apply starts_cons. apply is_label_false, W. }
  apply is_label_true in W. destruct a as [|u a]; cbpi H; [discriminate|].
  destruct (is_value "header" u) eqn:U1.
  { apply is_value_true in U1. apply IH in H as (ts & r & hb & new & -> & D & -> & -> & -> & N).
    exists (w :: u :: ts), r, true, new. rewrite orb_true_r. sp; [|cbn [rev]; rewrite <- !app_assoc; reflexivity|exact N].
    econstructor; eassumption. }
  destruct (is_value "expected" u || is_value "given" u)%bool eqn:U2; cbpi H; [|discriminate].
  destruct (parseColumnGroup _ _ _) as [g s1| | | | |] eqn:G in H; cbpi H; try discriminate.
  apply parseColumnGroup_sound in G as (ty & la & ds & at_ & i & r & x & y & z & n & -> & Dm & A & I & -> & ->).
  apply IH in H as (ts & r' & hb & new & -> & D & -> & -> & -> & N). rewrite snoc_len in D.
  exists ([w; u; ty; la] ++ ds ++ [at_; i] ++ ts), r', hb. eexists. sp.
  5: exact N.
  - cbn [app]. rewrite <- app_assoc. reflexivity.
  - apply clauses_group with (b := hb) (gs := new); [exact W| |exact Dm|exact A|exact I|exact D].
    apply orb_prop in U2 as [U|U]; apply is_value_true in U; auto.
  - rewrite <- app_assoc. reflexivity.
  - norm_rev.
Qed.

Lemma dataset_with_complete ts n hb new :
  dataset_clauses n ts hb new -> forall k h gs b r, List.length gs = n -> List.length (ts ++ r) < k -> ~ starts_with (kind "_with") r ->
  dataset_with_loop k h gs (st b (ts ++ r)) = PVal ((h || hb)%bool, gs ++ new) (st (rev ts ++ b) r).
Proof.
  induction 1 as [n|n w u ts hb new W U D IH|n w u ty la ds at_ i ts hb new x y z v W U Dm A I D IH];
    intros k h gs b r Hn Hk N; (destruct k as [|k]; [cbn in Hk; lia|]); cbn [dataset_with_loop].
  - rewrite orb_false_r, app_nil_r. cbn [app rev]. destruct r as [|t r]; cbp; [reflexivity|].
    apply not_starts in N. labn N. cbp. reflexivity.
  - cbn [app]. cbp. lab W. cbp. rewrite (proj2 (is_value_true _ _) U). rewrite IH; [|exact Hn| |exact N].
    + rewrite orb_true_r. cbn [orb]. norm_rev.
    + cbn [app List.length] in Hk. lia.
  - rewrite <- !app_assoc. cbn [app]. cbp. lab W. cbp.
    assert (E : is_value "header" u = false).
    { apply is_value_false. unfold says in *. intro E. rewrite E in U. destruct U as [U|U]; discriminate. }
    rewrite E. assert (E' : (is_value "expected" u || is_value "given" u)%bool = true).
    { apply orb_true_iff. destruct U as [U|U]; [right|left]; apply is_value_true, U. }
    rewrite E'. rewrite (parseColumnGroup_complete _ _ _ _ _ _ _ _ _ _ _ _ _ Dm A I). cbp.
    rewrite IH; [|rewrite snoc_len; lia| |exact N].
    + rewrite Hn, <- app_assoc. norm_rev.
    + clear - Hk. repeat (rewrite app_length in * || cbn [List.length app] in * ). lia.
Qed.

(** *** create dataset: location *)
Lemma in_location_true t : in_location t = true <-> path_token t.
Proof.
  unfold in_location, path_token. rewrite !orb_true_iff, is_value_true, !is_label_true. cbn [In]. unfold kind.
  split; [intros [[[[[[[H|H]|H]|H]|H]|H]|H]|H]|intros [H|[H|[H|[H|[H|[H|[H|[H|[]]]]]]]]]]; auto 20.
Qed.
Lemma location_sound k url b a v s' :
  location_loop k url (st b a) = PVal v s' ->
  exists path r, a = path ++ r /\ Forall path_token path /\ ~ starts_with path_token r /\ (path = [] -> r <> []) /\
    v = url ++ List.concat (map value path) /\ s' = st (rev path ++ b) r.
Proof.
  revert url b a. induction k as [|k IH]; intros url b a H; [discriminate|]. cbn [location_loop] in H.
  destruct a as [|t a]; cbpi H; [discriminate|]. destruct (in_location t) eqn:T.
  - apply in_location_true in T. destruct a as [|t' a]; cbpi H.
    + injection H as <- <-. exists [t], []. cbn [map List.concat]. rewrite (app_nil_r (value t)).
      sp; [constructor; [assumption|constructor]|apply starts_nil|discriminate].
    + apply IH in H as (path & r & E & F & N & Z & -> & ->). exists (t :: path), r. rewrite E.
      sp; [constructor; assumption|exact N|discriminate|cbn [map List.concat]; rewrite app_assoc; reflexivity|norm_rev].
  - injection H as <- <-. exists [], (t :: a). cbn [map List.concat]. rewrite (app_nil_r url). sp; [constructor| |discriminate].
    apply starts_cons. intro P. apply in_location_true in P. congruence.
Qed.
Lemma location_complete path r :
  Forall path_token path -> ~ starts_with path_token r -> (path = [] -> r <> []) ->
  forall k url b, List.length (path ++ r) < k ->
  location_loop k url (st b (path ++ r)) = PVal (url ++ List.concat (map value path)) (st (rev path ++ b) r).
Proof.
  intros F N. induction F as [|t path T F IH]; intros Z k url b Hk; (destruct k as [|k]; [cbn in Hk; lia|]); cbn [location_loop].
  - cbn [app map List.concat rev]. rewrite app_nil_r. destruct r as [|t r]; [exfalso; apply Z; reflexivity|]. cbp.
    apply not_starts in N. destruct (in_location t) eqn:E; [apply in_location_true in E; contradiction|reflexivity].
  - cbn [app] in *. cbp. rewrite (proj2 (in_location_true t) T). destruct (path ++ r) as [|t' a] eqn:E; cbp.
    + apply app_eq_nil in E as [-> ->]. cbn. rewrite app_nil_r. reflexivity.
    + rewrite IH.
      * cbn [map List.concat rev]. rewrite <- !app_assoc. reflexivity.
      * intros -> ->. discriminate.
      * cbn [List.length] in *. lia.
Qed.

(** *** create task: clauses *)
Lemma task_with_sound k kw g t b a g' t' s' :
  task_with_loop k kw g t (st b a) = PVal (g', t') s' ->
  exists ts r og ot, a = ts ++ r /\ task_clauses ts og ot /\ g' = (match og with Some x => x | None => g end) /\
    t' = (match ot with Some x => x | None => t end) /\ s' = st (rev ts ++ b) r /\ r <> [] /\ ~ starts_with (kind "_with") r.
Proof.
  revert g t b a. induction k as [|k IH]; intros g t b a H; [discriminate|]. cbn [task_with_loop] in H.
  destruct a as [|w a]; cbpi H; [discriminate|]. destruct (is_label "_with" w) eqn:W; cbpi H.
  2:{ injection H as <- <- <-. exists [], (w :: a), None, None. sp; [constructor|discriminate|].
      apply starts_cons, is_label_false, W. }
  apply is_label_true in W. destruct a as [|u a]; cbpi H; [discriminate|].
  destruct (is_value "test" u) eqn:U1.
  { apply is_value_true in U1. destruct a as [|x a]; cbpi H; [discriminate|].
    apply IH in H as (ts & r & og & ot & -> & D & -> & -> & -> & N).
    exists (w :: u :: x :: ts), r, og. eexists. split; [reflexivity|]. split; [eapply task_test; eassumption|].
    split; [reflexivity|]. split; [destruct ot; reflexivity|]. split; [cbn [rev]; rewrite <- !app_assoc; reflexivity|exact N]. }
  destruct (is_value "goal" u) eqn:U2; [|discriminate].
  { apply is_value_true in U2. destruct a as [|x a]; cbpi H; [discriminate|].
    apply IH in H as (ts & r & og & ot & -> & D & -> & -> & -> & N).
    exists (w :: u :: x :: ts), r. eexists. exists ot. split; [reflexivity|]. split; [eapply task_goal; eassumption|].
    split; [destruct og; reflexivity|]. split; [reflexivity|]. split; [cbn [rev]; rewrite <- !app_assoc; reflexivity|exact N]. }
Qed.
Lemma task_with_complete ts og ot :
  task_clauses ts og ot -> forall k kw g t b r, List.length (ts ++ r) < k -> r <> [] -> ~ starts_with (kind "_with") r ->
  task_with_loop k kw g t (st b (ts ++ r)) =
  PVal (match og with Some x => x | None => g end, match ot with Some x => x | None => t end) (st (rev ts ++ b) r).
Proof.
  induction 1 as [|w u x ts og ot W U D IH|w u x ts og ot W U D IH]; intros k kw g t b r Hk Z N; (destruct k as [|k]; [cbn in Hk; lia|]);
    cbn [task_with_loop].
  - destruct r as [|y r]; [congruence|]. cbn [app rev]. cbp. apply not_starts in N. labn N. cbp. reflexivity.
  - cbn [app]. cbp. lab W. cbp. assert (E : is_value "test" u = false).
    { apply is_value_false. unfold says in *. rewrite U. discriminate. }
    rewrite E, (proj2 (is_value_true _ _) U). cbp. rewrite IH; [|cbn [app List.length] in Hk; lia|exact Z|exact N].
    cbn [rev]. rewrite <- !app_assoc. destruct og; reflexivity.
  - cbn [app]. cbp. lab W. cbp. rewrite (proj2 (is_value_true _ _) U). cbp. rewrite IH; [|cbn [app List.length] in Hk; lia|exact Z|exact N].
    cbn [rev]. rewrite <- !app_assoc. destruct ot; reflexivity.
Qed.

(** *** execute: input *)
Section Input.
Context (in_range : str -> bool).
Notation unq := (fun l v : str => unescapeString l = Ok v).
Notation rd := (stof_ok in_range).

Lemma token_value_sound t s v s' : token_value in_range t s = PVal v s' -> value_of rd unq t v /\ s' = s.
Proof.
  unfold token_value. destruct (is_label "_number" t) eqn:N.
  - apply is_label_true in N. destruct (rd (value t)) eqn:R; [|discriminate]. intro H. injection H as <- <-. split; [|reflexivity].
    apply value_number; assumption.
  - apply is_label_false in N. destruct (is_label "_string" t) eqn:Q.
    + apply is_label_true in Q. destruct (unescapeString (value t)) eqn:U; try discriminate. intro H. injection H as <- <-.
      split; [|reflexivity]. apply value_string; assumption.
    + apply is_label_false in Q. intro H. injection H as <- <-. split; [|reflexivity]. apply value_other; assumption.
Qed.
Lemma token_value_complete t s v : value_of rd unq t v -> token_value in_range t s = PVal v s.
Proof.
  unfold token_value. intros [N R|w Q U|N Q].
  - lab N. rewrite R. reflexivity.
  - replace (is_label "_number" t) with false by (symmetry; apply is_label_false; kn). lab Q. rewrite U. reflexivity.
  - labn N. labn Q. reflexivity.
Qed.

Lemma list_sound k acc b a vs s' :
  list_loop in_range k acc (st b a) = PVal vs s' ->
  exists ts r new, a = ts ++ r /\ list_items rd unq ts new /\ vs = acc ++ new /\ s' = st (rev ts ++ b) r /\
    match r with t :: _ => kind "_close_bracket" t | [] => True end.
Proof.
  revert acc b a. induction k as [|k IH]; intros acc b a H; [discriminate|]. cbn [list_loop] in H.
  destruct a as [|t a]; cbpi H.
  { injection H as <- <-. exists [], [], []. rewrite (app_nil_r acc). sp. constructor. }
  destruct (is_label "_close_bracket" t) eqn:C.
  { injection H as <- <-. exists [], (t :: a), []. rewrite (app_nil_r acc). sp; [constructor|apply is_label_true, C]. }
  apply is_label_false in C. destruct (is_label "_comma" t) eqn:M.
  { apply is_label_true in M. apply IH in H as (ts & r & new & -> & L & -> & -> & R).
    exists (t :: ts), r, new. sp; [apply items_comma; assumption|norm_rev|exact R]. }
  apply is_label_false in M. destruct (token_value in_range t _) as [v s1| | | | |] eqn:V in H; cbpi H; try discriminate.
  apply token_value_sound in V as [V ->]. apply IH in H as (ts & r & new & -> & L & -> & -> & R).
  exists (t :: ts), r, (v :: new). sp; [apply items_value; assumption|norm_rev|norm_rev|exact R].
Qed.
Lemma list_complete ts new :
  list_items rd unq ts new -> forall k acc b cl r, List.length (ts ++ cl :: r) < k -> kind "_close_bracket" cl ->
  list_loop in_range k acc (st b (ts ++ cl :: r)) = PVal (acc ++ new) (st (rev ts ++ b) (cl :: r)).
Proof.
  induction 1 as [|t ts new M L IH|t ts v new M C V L IH]; intros k acc b cl r Hk Hc; (destruct k as [|k]; [cbn in Hk; lia|]);
    cbn [list_loop app]; cbp.
  - lab Hc. rewrite app_nil_r. reflexivity.
  - replace (is_label "_close_bracket" t) with false by (symmetry; apply is_label_false; kn). lab M.
    rewrite IH; [norm_rev|cbn [app List.length] in Hk; lia|exact Hc].
  - labn C. labn M. rewrite (token_value_complete _ _ _ V). cbp.
    rewrite IH; [norm_rev|cbn [app List.length] in Hk; lia|exact Hc].
Qed.

Definition entry_loop_value (p : token) (s : stream) : presult (list variant) :=
  if is_label "_open_bracket" p then
    let! _, s := next s in
    let! values, s := list_loop in_range (S (List.length (after s))) [] s in
    if negb (hasNext 1 s) then PRun (msg "Invalid input value") s else
    let! _, s := next s in PVal values s
  else let! t, s := next s in let! v, s := token_value in_range t s in PVal [v] s.

Lemma entry_sound b p a vs s' :
  is_label "_string" p = true \/ is_label "_word" p = true \/ is_label "_number" p = true \/ is_label "_open_bracket" p = true ->
  entry_loop_value p (st b (p :: a)) = PVal vs s' ->
  exists ts r, p :: a = ts ++ r /\ entry_value rd unq ts vs /\ s' = st (rev ts ++ b) r.
Proof.
  unfold entry_loop_value. intros K H. destruct (is_label "_open_bracket" p) eqn:O.
  - apply is_label_true in O. cbpi H. destruct (list_loop _ _ _ _) as [vs' s1| | | | |] eqn:L in H; cbpi H; try discriminate.
    apply list_sound in L as (ts & r & new & -> & L & -> & -> & R). destruct r as [|cl r]; cbpi H; [discriminate|].
    injection H as <- <-. exists (p :: ts ++ [cl]), r. sp; [norm_rev|apply entry_list; assumption|norm_rev].
  - cbpi H. destruct (token_value in_range p _) as [v s1| | | | |] eqn:V in H; cbpi H; try discriminate.
    apply token_value_sound in V as [V ->]. injection H as <- <-. exists [p], a. sp. apply entry_single; [|exact V].
    rewrite !is_label_true in K. destruct K as [K|[K|[K|K]]]; auto. discriminate.
Qed.
Lemma entry_complete ts vs b r :
  entry_value rd unq ts vs -> exists p a, ts ++ r = p :: a /\
    (kind "_string" p \/ kind "_word" p \/ kind "_number" p \/ kind "_open_bracket" p) /\
    entry_loop_value p (st b (ts ++ r)) = PVal vs (st (rev ts ++ b) r).
Proof.
  intros [t v K V|o ts' cl vs' O L C]; unfold entry_loop_value.
  - exists t, r. split; [reflexivity|]. split; [tauto|]. assert (N : ~ kind "_open_bracket" t).
    { intro E. destruct K as [K|[K|K]]; pose proof (kind_excl E K); discriminate. }
    labn N. cbn [app]. cbp. rewrite (token_value_complete _ _ _ V). cbp. reflexivity.
  - exists o, ((ts' ++ [cl]) ++ r). split; [reflexivity|]. split; [tauto|]. lab O. rewrite <- app_comm_cons, <- app_assoc. cbn [app]. cbp.
    rewrite (list_complete _ _ L); [|lia|exact C]. cbp. norm_rev.
Qed.

Lemma key_sound b k key a s' :
  (if is_label "_string" k then match unescapeString (value k) with Ok v => PVal v (st b a) | _ => PLog (st b a) end
   else PVal (value k) (st b a)) = PVal key s' ->
  is_label "_word" k = true \/ is_label "_string" k = true -> key_text unq k key /\ s' = st b a.
Proof.
  destruct (is_label "_string" k) eqn:Q; intros H K.
  - apply is_label_true in Q. destruct (unescapeString (value k)) eqn:U; try discriminate. injection H as <- <-.
    split; [|reflexivity]. apply key_string; assumption.
  - injection H as <- <-. split; [|reflexivity]. apply key_word. destruct K as [K|K]; [apply is_label_true, K|congruence].
Qed.

Definition put_all (m es : list (str * list variant)) := fold_left (fun m e => put m (fst e) (snd e)) es m.

Lemma input_loop_eq k inputs s :
  input_loop in_range (S k) inputs s =
    (if negb (hasNext 1 s) then PVal inputs s else
    let! p, s := peek s in
    if is_label "_close_parenthesis" p then PVal inputs s else
    let! next_key, s := next s in
    if negb (is_label "_word" next_key) && negb (is_label "_string" next_key) then PRun (msg "Invalid input key") s else
    let! key, s := (if is_label "_string" next_key
                    then match unescapeString (value next_key) with Ok v => PVal v s | _ => PLog s end
                    else PVal (value next_key) s) in
    if negb (hasNext 1 s) then PRun (msg "Invalid input key") s else
    let! p, s := peek s in
    if negb (is_label "_colon" p) then PRun (msg "Invalid input key") s else
    let! _, s := next s in
    if negb (hasNext 1 s) then PRun (msg "Invalid input value") s else
    let! p, s := peek s in
    if negb (is_label "_string" p) && negb (is_label "_word" p) && negb (is_label "_number" p) && negb (is_label "_open_bracket" p)
      then PRun (msg "Invalid input value") s else
    let! v, s := entry_loop_value p s in
    let inputs := put inputs (map tolower key) v in
    if hasNext 1 s then
      let! p, s := peek s in
      if is_label "_comma" p then let! _, s := next s in input_loop in_range k inputs s else input_loop in_range k inputs s
    else input_loop in_range k inputs s).
Proof. reflexivity. Qed.

Lemma input_sound k acc b a m s' :
  input_loop in_range k acc (st b a) = PVal m s' ->
  exists ts r es, a = ts ++ r /\ entries rd unq ts es /\ m = put_all acc es /\ s' = st (rev ts ++ b) r /\
    match r with t :: _ => kind "_close_parenthesis" t | [] => True end.
Proof.
  revert acc b a. induction k as [|k IH]; intros acc b a H; [discriminate|]. rewrite input_loop_eq in H.
  destruct a as [|t a]; cbpi H.
  { injection H as <- <-. exists [], [], []. sp. constructor. }
  destruct (is_label "_close_parenthesis" t) eqn:C.
  { injection H as <- <-. exists [], (t :: a), []. sp; [constructor|apply is_label_true, C]. }
  apply is_label_false in C. destruct (negb (is_label "_word" t) && negb (is_label "_string" t))%bool eqn:K; [discriminate|].
  match type of H with pbind ?x _ = _ => destruct x as [key s1| | | | |] eqn:Ky end; cbpi H; try discriminate.
  apply key_sound in Ky as [Ky ->].
  2:{ destruct (is_label "_word" t); [auto|]. destruct (is_label "_string" t); auto. }
  destruct a as [|c a]; cbpi H; [discriminate|]. destruct (is_label "_colon" c) eqn:Co; cbpi H; [|discriminate].
  apply is_label_true in Co. destruct a as [|p a]; cbpi H; [discriminate|].
  destruct (negb (is_label "_string" p) && negb (is_label "_word" p) && negb (is_label "_number" p) && negb (is_label "_open_bracket" p))%bool eqn:P;
    [discriminate|].
  destruct (entry_loop_value _ _) as [vs s2| | | | |] eqn:V in H; cbpi H; try discriminate.
  apply entry_sound in V as (vts & r & E & V & ->).
  2:{ destruct (is_label "_string" p); [auto|]. destruct (is_label "_word" p); [auto|]. destruct (is_label "_number" p); [auto|].
      destruct (is_label "_open_bracket" p); [auto|discriminate]. }
  rewrite E. destruct r as [|m' r]; cbpi H.
  - apply IH in H as (ts & r & es & E' & L & -> & -> & R). exists (t :: c :: vts ++ ts), r, ((map tolower key, vs) :: es).
    sp; [cbn [app]; rewrite <- app_assoc, <- E'; reflexivity|eapply entries_plain; eassumption|norm_rev|exact R].
  - destruct (is_label "_comma" m') eqn:M.
    + apply is_label_true in M. apply IH in H as (ts & r' & es & E' & L & -> & -> & R).
      exists (t :: c :: vts ++ m' :: ts), r', ((map tolower key, vs) :: es).
      sp; [cbn [app]; rewrite <- app_assoc, E'; reflexivity|eapply entries_comma; eassumption|norm_rev|exact R].
    + apply IH in H as (ts & r' & es & E' & L & -> & -> & R). exists (t :: c :: vts ++ ts), r', ((map tolower key, vs) :: es).
      sp; [cbn [app]; rewrite <- app_assoc, <- E'; reflexivity|eapply entries_plain; eassumption|norm_rev|exact R].
Qed.

Lemma key_kind k key : key_text unq k key -> kind "_word" k \/ kind "_string" k.
Proof. intros [H|v H _]; auto. Qed.
Lemma entries_head ts es : entries rd unq ts es -> match ts with t :: _ => kind "_word" t \/ kind "_string" t | [] => True end.
Proof. intros [|k key c vts vs m ts' es' K _ _ _ _|k key c vts vs ts' es' K _ _ _]; [exact I| |]; eapply key_kind; eassumption. Qed.

Lemma key_step b k key a :
  key_text unq k key ->
  (negb (is_label "_word" k) && negb (is_label "_string" k))%bool = false /\
  is_label "_close_parenthesis" k = false /\
  (if is_label "_string" k then match unescapeString (value k) with Ok v => PVal v (st b a) | _ => PLog (st b a) end
   else PVal (value k) (st b a)) = PVal key (st b a).
Proof.
  intros K. destruct (key_kind _ _ K) as [W|Q].
  - lab W. split; [reflexivity|]. split; [apply is_label_false; kn|].
    replace (is_label "_string" k) with false by (symmetry; apply is_label_false; kn).
    destruct K as [_|v Q _]; [reflexivity|]. pose proof (kind_excl W Q). discriminate.
  - lab Q. split; [cbn; apply andb_false_r|]. split; [apply is_label_false; kn|].
    destruct K as [W|v _ U]; [pose proof (kind_excl W Q); discriminate|]. rewrite U. reflexivity.
Qed.

Lemma input_complete ts es :
  entries rd unq ts es -> forall k acc b cl r, List.length (ts ++ cl :: r) < k -> kind "_close_parenthesis" cl ->
  input_loop in_range k acc (st b (ts ++ cl :: r)) = PVal (put_all acc es) (st (rev ts ++ b) (cl :: r)).
Proof.
  induction 1 as [|k key c vts vs m ts es K Co V M L IH|k key c vts vs ts es K Co V L IH]; intros n acc b cl r Hk Hc;
    (destruct n as [|n]; [cbn in Hk; lia|]); rewrite input_loop_eq.
  - cbn [app]. cbp. lab Hc. reflexivity.
  - cbn [app]. cbp. rewrite <- app_assoc. destruct (key_step (k :: b) k key (c :: vts ++ (m :: ts) ++ cl :: r) K) as (S1 & S2 & S3).
    rewrite S2. cbp. rewrite S1, S3. cbp. lab Co. cbp.
    destruct (entry_complete vts vs (c :: k :: b) ((m :: ts) ++ cl :: r) V) as (p & a & E & P & EV). rewrite E in EV |- *. cbp.
    assert (P' : (negb (is_label "_string" p) && negb (is_label "_word" p) && negb (is_label "_number" p) && negb (is_label "_open_bracket" p))%bool = false).
    { destruct P as [P|[P|[P|P]]]; lab P; cbn [negb]; rewrite ?andb_false_r; reflexivity. }
    rewrite P', EV. cbn [app]. cbp. lab M. cbp. rewrite IH; [|repeat (rewrite app_length in * || cbn [List.length app] in * ); lia|exact Hc].
    norm_rev.
  - cbn [app]. cbp. rewrite <- app_assoc. destruct (key_step (k :: b) k key (c :: vts ++ ts ++ cl :: r) K) as (S1 & S2 & S3).
    rewrite S2. cbp. rewrite S1, S3. cbp. lab Co. cbp.
    destruct (entry_complete vts vs (c :: k :: b) (ts ++ cl :: r) V) as (p & a & E & P & EV). rewrite E in EV |- *. cbp.
    assert (P' : (negb (is_label "_string" p) && negb (is_label "_word" p) && negb (is_label "_number" p) && negb (is_label "_open_bracket" p))%bool = false).
    { destruct P as [P|[P|[P|P]]]; lab P; cbn [negb]; rewrite ?andb_false_r; reflexivity. }
    rewrite P', EV. pose proof (entries_head _ _ L) as Hh.
    assert (IH' : input_loop in_range n (put acc (map tolower key) vs) (st (rev vts ++ c :: k :: b) (ts ++ cl :: r)) =
       PVal (put_all acc ((map tolower key, vs) :: es)) (st (rev (k :: c :: vts ++ ts) ++ b) (cl :: r))).
    { rewrite IH; [|repeat (rewrite app_length in * || cbn [List.length app] in * ); lia|exact Hc]. norm_rev. }
    destruct ts as [|t ts]; cbn [app] in *; cbp.
    + replace (is_label "_comma" cl) with false by (symmetry; apply is_label_false; kn). exact IH'.
    + replace (is_label "_comma" t) with false by (symmetry; apply is_label_false; intro Z; destruct Hh as [Hh|Hh]; pose proof (kind_excl Z Hh); discriminate).
      exact IH'.
Qed.

Definition has_key (es : list (str * list variant)) (k : str) : bool := existsb (fun f => seq_eqb (fst f) k) es.
Lemma has_key_dec es (k : str) : existsb (fun f : str * list variant => if list_eq_dec ascii_dec (fst f) k then true else false) es = has_key es k.
Proof.
  induction es as [|e es IH]; [reflexivity|]. cbn [existsb has_key]. rewrite IH. unfold has_key.
  destruct (list_eq_dec ascii_dec (fst e) k) as [E|E], (seq_eqb_spec (fst e) k); try contradiction; reflexivity.
Qed.
Lemma filter_filter_key (acc : list (str * list variant)) k es :
  filter (fun q => negb (has_key es (fst q))) (filter (fun q => negb (seq_eqb (fst q) k)) acc) =
  filter (fun q => negb (seq_eqb k (fst q) || has_key es (fst q))) acc.
Proof.
  assert (Sy : forall a b, seq_eqb a b = seq_eqb b a) by (intros a b; destruct (seq_eqb_spec a b), (seq_eqb_spec b a); congruence).
  induction acc as [|q acc IH]; [reflexivity|]. cbn [filter]. rewrite (Sy k (fst q)).
  destruct (seq_eqb (fst q) k); cbn [negb orb filter]; [exact IH|]. destruct (has_key es (fst q)); cbn [negb]; rewrite IH; reflexivity.
Qed.
Lemma put_all_last es acc : put_all acc es = filter (fun q => negb (has_key es (fst q))) acc ++ last_wins es.
Proof.
  revert acc. induction es as [|e es IH]; intro acc.
  - cbn. rewrite app_nil_r. induction acc as [|q acc IH]; [reflexivity|]. cbn. rewrite <- IH. reflexivity.
  - cbn [put_all fold_left]. fold (put_all (put acc (fst e) (snd e)) es). rewrite IH. unfold put. rewrite filter_app, <- app_assoc, filter_filter_key.
    cbn [has_key existsb last_wins]. f_equal. rewrite has_key_dec. cbn [filter fst]. destruct e as [k v]. cbn [fst snd].
    destruct (has_key es k); reflexivity.
Qed.

Lemma parseInput_spec b a m s' :
  parseInput in_range (st b a) = PVal m s' <->
  exists o ts cl r es, a = o :: ts ++ cl :: r /\ kind "_open_parenthesis" o /\ entries rd unq ts es /\ kind "_close_parenthesis" cl /\
    m = last_wins es /\ s' = st (rev (o :: ts ++ [cl]) ++ b) r.
Proof.
  unfold parseInput. split.
  - intro H. destruct a as [|o a]; cbpi H; [discriminate|]. destruct (is_label "_open_parenthesis" o) eqn:O; cbpi H; [|discriminate].
    apply is_label_true in O. destruct (input_loop _ _ _ _) as [m' s1| | | | |] eqn:L in H; cbpi H; try discriminate.
    apply input_sound in L as (ts & r & es & -> & L & -> & -> & R). destruct r as [|cl r]; cbpi H; [discriminate|].
    lab_in H R. injection H as <- <-. exists o, ts, cl, r, es. rewrite put_all_last. sp; try assumption. norm_rev.
  - intros (o & ts & cl & r & es & -> & O & L & C & -> & ->). cbp. lab O. cbp. rewrite (input_complete _ _ L); [|lia|exact C]. cbp.
    lab C. cbp. rewrite put_all_last. norm_rev.
Qed.

(** *** statements *)
Lemma catch_val {A} (x : presult A) v s : catch_runtime x = PVal v s <-> x = PVal v s.
Proof.
  destruct x as [a s0|e|m s0|s0| |]; cbn; try (split; congruence). unfold generateError. destruct (previous s0); split; discriminate.
Qed.
Lemma is_raw m : (if list_eq_dec ascii_dec (value m) (lit "raw") then true else false) = is_value "raw" m.
Proof. unfold is_value. destruct (list_eq_dec _ _ _) as [E|E], (seq_eqb_spec (value m) (lit "raw")); try contradiction; reflexivity. Qed.

Notation sps := (spells rd unq).
Definition reads_as (P : token -> stream -> presult statement) (first : token) : Prop :=
  forall b a v s', P first (st b a) = PVal v s' <-> exists ts r, a = ts ++ r /\ sps v (first :: ts) r /\ s' = st (rev ts ++ b) r.

Lemma help_reads first : kind "_help" first -> reads_as (fun _ => parseHelpStatement) first.
Proof.
  intros K b a v s'. unfold parseHelpStatement. split.
  - intro H. destruct a as [|t a]; cbpi H; injection H as <- <-.
    + exists [], []. sp. apply spells_help, K.
    + exists [t], a. sp. apply spells_help_topic, K.
  - intros (ts & r & -> & H & ->). inversion H; subst; try (match goal with H : kind _ first |- _ => pose proof (kind_excl K H); discriminate end); reflexivity.
Qed.
Lemma exit_reads first : kind "_exit" first -> reads_as (fun _ s => PVal SExit s) first.
Proof.
  intros K b a v s'. split.
  - intro H. injection H as <- <-. exists [], a. sp. apply spells_exit, K.
  - intros (ts & r & -> & H & ->). inversion H; subst; try (match goal with H : kind _ first |- _ => pose proof (kind_excl K H); discriminate end); reflexivity.
Qed.
Lemma print_reads first : kind "_print" first -> reads_as (fun _ => parsePrintStatement) first.
Proof.
  intros K b a v s'. unfold parsePrintStatement. split.
  - intro H. destruct a as [|m a]; cbpi H; [destruct b; discriminate|].
    destruct (negb (is_value "raw" m) && negb (is_value "pretty" m))%bool eqn:M; [discriminate|].
    assert (M' : says "raw" m \/ says "pretty" m).
    { rewrite <- !is_value_true. destruct (is_value "raw" m); [auto|]. destruct (is_value "pretty" m); [auto|discriminate]. }
    destruct a as [|n a]; cbpi H; [discriminate|]. rewrite <- is_raw in H. destruct a as [|l a]; cbpi H.
    { injection H as <- <-. exists [m; n], []. sp. apply spells_print; [exact K|exact M'|apply starts_nil]. }
    destruct (is_label "_limit" l) eqn:L; cbpi H.
    2:{ injection H as <- <-. exists [m; n], (l :: a). sp. apply spells_print; [exact K|exact M'|apply starts_cons, is_label_false, L]. }
    num H. injection H as <- <-. subst a. eexists [m; n; l; _], _. sp. apply spells_print_limit; [exact K|exact M'|apply is_label_true, L|assumption].
  - intros (ts & r & -> & H & ->). inversion H; subst; try (match goal with H : kind _ first |- _ => pose proof (kind_excl K H); discriminate end); cbn [app]; cbp.
    + assert (E : (negb (is_value "raw" m) && negb (is_value "pretty" m))%bool = false).
      { match goal with H : _ \/ _ |- _ => destruct H as [E|E]; rewrite (proj2 (is_value_true _ _) E); cbn [negb]; rewrite ?andb_false_r; reflexivity end. }
      rewrite E, is_raw. destruct r as [|l r]; cbp; [reflexivity|]. match goal with H : ~ starts_with _ _ |- _ => apply not_starts in H; labn H end. reflexivity.
    + assert (E : (negb (is_value "raw" m) && negb (is_value "pretty" m))%bool = false).
      { match goal with H : _ \/ _ |- _ => destruct H as [E|E]; rewrite (proj2 (is_value_true _ _) E); cbn [negb]; rewrite ?andb_false_r; reflexivity end. }
      rewrite E, is_raw. cbp. match goal with H : kind "_limit" _ |- _ => lab H end. cbp.
      match goal with H : int_token _ _ |- _ => rewrite (nn _ _ _ _ H) end. reflexivity.
Qed.

Lemma using_not_with u r : kind "_using" u -> ~ starts_with (kind "_with") (u :: r).
Proof. intro U. apply starts_cons. kn. Qed.

Lemma create_reads first : kind "_create" first -> reads_as (fun _ => parseCreateStatement) first.
Proof.
  intros K b a v s'. unfold parseCreateStatement. split.
  - intro H. destruct a as [|k a]; cbpi H; [destruct b; discriminate|]. destruct (is_label "_dataset" k) eqn:D.
    + apply is_label_true in D. unfold parseCreateDataset in H. rewrite catch_val in H. destruct a as [|n a]; cbpi H; [discriminate|].
      destruct (is_label "_word" n) eqn:N; cbpi H; [|discriminate]. apply is_label_true in N.
      destruct a as [|x a]; cbpi H; [discriminate|]. destruct a as [|y a]; cbpi H; [discriminate|].
      destruct (dataset_with_loop _ _ _ _) as [[h gs] s1| | | | |] eqn:L in H; cbpi H; try discriminate.
      apply dataset_with_sound in L as (ts & r & hb & new & E & L & -> & -> & -> & W). rewrite E. clear E.
      destruct r as [|u r]; cbpi H; [destruct (_ ++ _); discriminate|]. destruct (is_label "_using" u) eqn:U; cbpi H; [|discriminate].
      apply is_label_true in U. unfold parseLocation in H. destruct r as [|sc r]; cbpi H; [discriminate|].
      destruct r as [|x1 r]; cbpi H; [discriminate|]. destruct r as [|x2 r]; cbpi H; [discriminate|]. destruct r as [|x3 r]; cbpi H; [discriminate|].
      destruct (location_loop _ _ _) as [loc s2| | | | |] eqn:Lo in H; cbpi H; try discriminate.
      apply location_sound in Lo as (path & r' & -> & F & St & Z & -> & ->). injection H as <- <-.
      exists (k :: n :: ts ++ [u; sc; x1; x2; x3] ++ path), r'. sp.
      * norm_rev.
      * rewrite <- app_assoc. apply (spells_dataset rd unq first k n ts); assumption.
      * norm_rev.
    + destruct (is_label "_task" k) eqn:T; [|discriminate]. apply is_label_true in T. unfold parseCreateTask in H. rewrite catch_val in H.
      destruct a as [|ty a]; cbpi H; [discriminate|]. destruct a as [|n a]; cbpi H; [discriminate|]. destruct a as [|x a]; cbpi H; [discriminate|].
      destruct (task_with_loop _ _ _ _ _) as [[g t] s1| | | | |] eqn:L in H; cbpi H; try discriminate.
      apply task_with_sound in L as (ts & r & og & ot & E & L & -> & -> & -> & Z & W). rewrite E. clear E.
      destruct r as [|u r]; [congruence|]. cbpi H. destruct (is_label "_using" u) eqn:U; cbpi H; [|discriminate].
      apply is_label_true in U. destruct r as [|d r]; cbpi H; [discriminate|]. injection H as <- <-.
      exists (k :: ty :: n :: ts ++ [u; d]), r. sp.
      * norm_rev.
      * apply (spells_task rd unq first k ty n ts); assumption.
      * norm_rev.
  - intros (ts & r & -> & H & ->). inversion H; subst; try (match goal with H : kind _ first |- _ => pose proof (kind_excl K H); discriminate end); cbn [app]; cbp.
    + replace (is_label "_dataset" k) with false by (symmetry; apply is_label_false; kn).
      match goal with H : kind "_task" _ |- _ => lab H end. unfold parseCreateTask. rewrite catch_val. rewrite <- app_assoc. cbp.
      rename ts0 into cs. assert (NE : exists x a, cs ++ [u; d] ++ r = x :: a) by (destruct cs; cbn; eauto).
      destruct NE as (x & a & NE). rewrite NE at 1. cbp. rewrite <- ?NE.
      match goal with H : task_clauses _ _ _ |- _ => rewrite (task_with_complete _ _ _ H); [|lia|discriminate|apply using_not_with; assumption] end.
      cbn [app]. cbp. match goal with H : kind "_using" _ |- _ => lab H end. cbp. norm_rev.
    + match goal with H : kind "_dataset" _ |- _ => lab H end. unfold parseCreateDataset. rewrite catch_val. rewrite <- !app_assoc. cbp.
      match goal with H : kind "_word" _ |- _ => lab H end. cbp. rename ts0 into cs.
      assert (NE : exists x y a, cs ++ [u; sc; x1; x2; x3] ++ path ++ r = x :: y :: a).
      { clear. destruct cs as [|? [|? ?]]; cbn; eauto. }
      destruct NE as (x & y & a & NE). rewrite NE at 1. cbp. rewrite <- ?NE.
      match goal with H : dataset_clauses _ _ _ _ |- _ => rewrite (dataset_with_complete _ _ _ _ H); [|reflexivity|lia|apply using_not_with; assumption] end.
      cbn [app orb]. cbp. match goal with H : kind "_using" _ |- _ => lab H end. cbp. unfold parseLocation. cbp.
      rewrite location_complete by (assumption || lia). cbp. norm_rev.
Qed.

Definition label_part (s : stream) : presult str :=
  if negb (hasNext 1 s) then PVal [] s else
      let! p, s := peek s in
      if negb (is_label "_with" p) then PVal [] s else
      let! _, s := consume 1 s in
      if negb (hasNext 1 s) then generateError (msg "with statement is incomplete ") (previous s) else
      let! withType, s := next s in
      if negb (is_label "_label" withType) then generateError (msg "with statement is invalid ") (Some withType) else
      if negb (hasNext 1 s) then generateError (msg "with statement is incomplete ") (previous s) else
      let! labelToken, s := next s in
      if negb (is_label "_word" labelToken) then generateError (msg "with statement is invalid ") (Some labelToken) else
      PVal (value labelToken) s.
Lemma label_part_sound b a l s' :
  label_part (st b a) = PVal l s' -> exists ts r, a = ts ++ r /\ label_clause ts l /\ s' = st (rev ts ++ b) r.
Proof.
  unfold label_part. intro H. destruct a as [|w a]; cbpi H.
  { injection H as <- <-. exists [], []. sp. constructor. }
  destruct (is_label "_with" w) eqn:W; cbpi H.
  2:{ injection H as <- <-. exists [], (w :: a). sp. constructor. }
  destruct a as [|k a]; cbpi H; [discriminate|]. destruct (is_label "_label" k) eqn:L; cbpi H; [|discriminate].
  destruct a as [|n a]; cbpi H; [discriminate|]. destruct (is_label "_word" n) eqn:N; cbpi H; [|discriminate].
  injection H as <- <-. exists [w; k; n], a. sp. apply label_some; apply is_label_true; assumption.
Qed.
Lemma label_part_complete ts l b u r :
  label_clause ts l -> kind "_using" u -> label_part (st b (ts ++ u :: r)) = PVal l (st (rev ts ++ b) (u :: r)).
Proof.
  intros [|w k n W L N] U; unfold label_part; cbn [app]; cbp.
  - replace (is_label "_with" u) with false by (symmetry; apply is_label_false; kn). reflexivity.
  - lab W. cbp. lab L. cbp. lab N. reflexivity.
Qed.

Lemma execute_reads first : kind "_execute" first -> reads_as (fun _ => parseExecuteStatement in_range) first.
Proof.
  intros K b a v s'. unfold parseExecuteStatement. rewrite catch_val.
  split.
  - intro H. destruct a as [|k a]; cbpi H; [destruct b; discriminate|]. destruct (is_label "_task" k) eqn:T; cbpi H; [|discriminate].
    destruct a as [|n a]; cbpi H; [discriminate|]. destruct (is_label "_word" n) eqn:N; cbpi H; [|discriminate].
    apply is_label_true in T. apply is_label_true in N.
    match type of H with pbind ?x _ = _ => change x with (label_part (st (n :: k :: b) a)) in H end.
    destruct (label_part _) as [l s1| | | | |] eqn:L in H; cbpi H; try discriminate. apply label_part_sound in L as (ts & r & -> & L & ->).
    destruct r as [|u r]; cbpi H; [destruct (_ ++ _); discriminate|]. destruct (is_label "_using" u) eqn:U; cbpi H; [|discriminate].
    apply is_label_true in U. destruct r as [|d r]; cbpi H; [discriminate|]. destruct (is_label "_dataset" d) eqn:D.
    + apply is_label_true in D. destruct r as [|dn r]; cbpi H; [discriminate|]. destruct (is_label "_word" dn) eqn:DN; cbpi H; [|discriminate].
      apply is_label_true in DN. injection H as <- <-. exists (k :: n :: ts ++ [u; d; dn]), r. sp.
      * norm_rev.
      * apply (spells_execute_dataset rd unq first k n ts); assumption.
      * norm_rev.
    + destruct (is_label "_input" d) eqn:I; [|discriminate]. apply is_label_true in I.
      destruct r as [|o r]; cbpi H; [discriminate|]. destruct (parseInput _ _) as [m s2| | | | |] eqn:P in H; cbpi H; try discriminate.
      apply parseInput_spec in P as (o' & es & cl & r' & ins & E & O & L' & C & -> & ->). injection H as <- <-. rewrite E.
      exists (k :: n :: ts ++ [u; d; o'] ++ es ++ [cl]), r'. sp.
      * norm_rev.
      * apply (spells_execute_input rd unq first k n ts); assumption.
      * norm_rev.
  - intros (ts & r & -> & H & ->). inversion H; subst; try (match goal with H : kind _ first |- _ => pose proof (kind_excl K H); discriminate end); cbn [app]; cbp.
    + match goal with H : kind "_task" _ |- _ => lab H end. cbp. match goal with H : kind "_word" n |- _ => lab H end. cbp.
      rewrite <- app_assoc. rename ts0 into cs.
      match goal with |- pbind ?x _ = _ => change x with (label_part (st (n :: k :: b) (cs ++ [u; d; dn] ++ r))) end. cbn [app].
      match goal with H : label_clause _ ?l |- _ => rewrite (label_part_complete _ l) by assumption end. cbp.
      match goal with H : kind "_using" _ |- _ => lab H end. cbp. match goal with H : kind "_dataset" _ |- _ => lab H end. cbp.
      match goal with H : kind "_word" dn |- _ => lab H end. cbp. norm_rev.
    + match goal with H : kind "_task" _ |- _ => lab H end. cbp. match goal with H : kind "_word" n |- _ => lab H end. cbp.
      rewrite <- app_assoc. rename ts0 into cs.
      match goal with |- pbind ?x _ = _ => change x with (label_part (st (n :: k :: b) (cs ++ ([u; i; o] ++ es ++ [cl]) ++ r))) end. cbn [app].
      match goal with H : label_clause _ ?l |- _ => rewrite (label_part_complete _ l) by assumption end. cbp.
      match goal with H : kind "_using" _ |- _ => lab H end. cbp.
      replace (is_label "_dataset" i) with false by (symmetry; apply is_label_false; kn).
      match goal with H : kind "_input" _ |- _ => lab H end. cbp.
      match goal with |- context [parseInput in_range ?s] => assert (PI : parseInput in_range s = PVal (last_wins inputs) (st (rev (o :: es ++ [cl]) ++ i :: u :: rev cs ++ n :: k :: b) r)) end.
      { apply parseInput_spec. exists o, es, cl, r, inputs. sp; try assumption. norm_rev. }
      rewrite PI. cbp. norm_rev.
Qed.

Lemma statement_reads first : reads_as (parseStatement in_range) first.
Proof.
  intros b a v s'. unfold parseStatement.
  destruct (is_label "_help" first) eqn:E1; [apply (help_reads first), is_label_true, E1|].
  destruct (is_label "_print" first) eqn:E2; [apply (print_reads first), is_label_true, E2|].
  destruct (is_label "_create" first) eqn:E3; [apply (create_reads first), is_label_true, E3|].
  destruct (is_label "_execute" first) eqn:E4; [apply (execute_reads first), is_label_true, E4|].
  destruct (is_label "_exit" first) eqn:E5; [apply (exit_reads first), is_label_true, E5|].
  split; [discriminate|]. intros (ts & r & _ & H & _). apply is_label_false in E1, E2, E3, E4, E5. inversion H; contradiction.
Qed.

Lemma spells_first stt ts r : sps stt ts r -> exists t ts', ts = t :: ts' /\ ~ kind "_newline" t.
Proof. intros H. inversion H; subst; cbn [app]; do 2 eexists; (split; [reflexivity|]); match goal with H : kind _ ?t |- ~ kind _ ?t => let E := fresh in intro E; pose proof (kind_excl E H); discriminate end. Qed.

Lemma block_sound k acc b a v s' :
  block_loop in_range k acc (st b a) = PVal v s' -> exists sts, v = acc ++ sts /\ script rd unq sts a /\ s' = st (rev a ++ b) [].
Proof.
  revert acc b a. induction k as [|k IH]; intros acc b a H; [discriminate|]. cbn [block_loop] in H. destruct a as [|t a]; cbpi H.
  { injection H as <- <-. exists []. rewrite app_nil_r. sp. constructor. }
  destruct (is_label "_newline" t) eqn:N.
  { apply is_label_true in N. apply IH in H as (sts & -> & H & ->). exists sts. sp; [apply script_newline; assumption|norm_rev]. }
  destruct (parseStatement in_range t _) as [x s1| | | | |] eqn:P in H; cbpi H; try discriminate.
  apply (statement_reads t) in P as (ts & r & -> & P & ->). apply IH in H as (sts & -> & H & ->).
  exists (x :: sts). sp; [norm_rev| |norm_rev]. apply (script_statement rd unq x sts (t :: ts) r); assumption.
Qed.
Lemma block_complete sts a : script rd unq sts a -> forall k acc b, List.length a < k ->
  block_loop in_range k acc (st b a) = PVal (acc ++ sts) (st (rev a ++ b) []).
Proof.
  induction 1 as [|t sts ts N H IH|x sts ts rest Sp H IH]; intros k acc b Hk; (destruct k as [|k]; [cbn in Hk; lia|]); cbn [block_loop].
  - cbp. rewrite app_nil_r. reflexivity.
  - cbp. lab N. rewrite IH by (cbn [List.length] in Hk; lia). norm_rev.
  - destruct (spells_first _ _ _ Sp) as (t & ts' & -> & N). cbn [app]. cbp. labn N.
    assert (P : parseStatement in_range t (st (t :: b) (ts' ++ rest)) = PVal x (st (rev ts' ++ t :: b) rest)).
    { apply (statement_reads t). exists ts', rest. sp. exact Sp. }
    rewrite P. cbp. rewrite IH; [norm_rev|]. cbn [app List.length] in Hk. rewrite app_length in Hk. lia.
Qed.
Lemma code_block_spec ts v s' :
  parseCodeBlock in_range ts = PVal v s' <-> script rd unq v ts /\ s' = st (rev ts) [].
Proof.
  unfold parseCodeBlock. split.
  - intro H. apply block_sound in H as (sts & -> & H & ->). rewrite app_nil_r. auto.
  - intros [H ->]. rewrite (block_complete _ _ H) by lia. rewrite app_nil_r. reflexivity.
Qed.
End Input.
