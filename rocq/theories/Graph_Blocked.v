(** Errors that do not get through. *)
From Coq Require Import List Arith Bool Lia.
From Verif Require Import Outcome Graph_Model Graph_Spec Graph_Forward Graph_Backward Graph_Props Graph_Back_Props.
Import ListNotations.

Section Blocked.
Context {T : Type} (g : graph) (add : T -> T -> T) (divide : T -> nat -> T).
Notation back := (nat -> T -> bstate T -> bstate T * status).

(** Whatever happens, the calls recorded so far stay; when all went well, each of the new calls did. *)
Definition grows (fine : nat * T -> Prop) (st st' : bstate T) (s : status) : Prop := exists new, received st' = received st ++ new /\ (s = Fine -> Forall fine new).
Lemma grows_refl : forall fine st s p, grows fine st {| prior_error := p; received := received st |} s.
Proof. intros fine st s p. exists []. cbn [received]. rewrite app_nil_r. split; [reflexivity|constructor]. Qed.
Lemma grows_trans : forall fine a b c s, grows fine a b Fine -> grows fine b c s -> grows fine a c s.
Proof. intros fine a b c s (n1 & E1 & F1) (n2 & E2 & F2). exists (n1 ++ n2). split; [rewrite E2, E1, app_assoc; reflexivity|]. intros E. apply Forall_app. split; auto. Qed.
Lemma grows_forget : forall fine a b p, grows fine a b Fine -> grows fine a {| prior_error := p; received := received b |} Fine.
Proof. intros fine a b p H. exact H. Qed.
Lemma send_back_grows : forall fine (f : back), (forall v e st, grows fine st (fst (f v e st)) (snd (f v e st))) ->
  forall cs es st, grows fine st (fst (send_back g add divide f cs es st)) (snd (send_back g add divide f cs es st)).
Proof.
  intros fine f H cs. induction cs as [|c cs IH]; intros [|e es] st; try (cbn; exists []; rewrite app_nil_r; split; [reflexivity|constructor]). cbn [send_back]. cbv zeta. destruct (Nat.eqb _ _).
  - specialize (H (from g c) e st). destruct (f (from g c) e st) as [st1 []] eqn:E; cbn [fst snd] in *; try exact H. eapply grows_trans; [exact H|apply IH].
  - destruct (averaged add divide _ _ _) as [a|].
    + match goal with |- context [f (from g c) a ?s] => specialize (H (from g c) a s); destruct (f (from g c) a s) as [st1 []] eqn:E end; cbn [fst snd received] in *; try exact H. eapply grows_trans; [|apply IH]. exact H.
    + match goal with |- context [send_back _ _ _ _ _ _ ?s] => exact (IH es s) end.
Qed.
Lemma backward_grows : forall lb fuel v e st, grows (fun ve => exists es, lb (fst ve) (snd ve) = Ok es) st (fst (backward g lb add divide fuel v e st)) (snd (backward g lb add divide fuel v e st)).
Proof.
  intros lb fuel. induction fuel as [|fuel IH]; intros v e st; cbn [backward]; [exists []; rewrite app_nil_r; split; [reflexivity|constructor]|]. cbv zeta. destruct (lb v e) as [es| |] eqn:E.
  - destruct (_ && _); [cbn [fst snd]; eexists; split; [reflexivity|discriminate]|]. eapply grows_trans; [|apply send_back_grows, IH]. exists [(v, e)]. split; [reflexivity|]. intros _. constructor; [cbn; eauto|constructor].
  - cbn [fst snd]. eexists. split; [reflexivity|discriminate].
  - cbn [fst snd]. eexists. split; [reflexivity|discriminate].
Qed.
Lemma outputs_grows : forall lb fuel os st, grows (fun ve => exists es, lb (fst ve) (snd ve) = Ok es) st (fst (backward_outputs g lb add divide fuel os st)) (snd (backward_outputs g lb add divide fuel os st)).
Proof.
  intros lb fuel os. induction os as [|[o e] os IH]; intros st; cbn [backward_outputs]; [exists []; rewrite app_nil_r; split; [reflexivity|constructor]|].
  pose proof (backward_grows lb fuel o e st) as H. destruct (backward g lb add divide fuel o e st) as [st1 []]; cbn [fst snd] in *; try exact H. eapply grows_trans; [exact H|apply IH].
Qed.

(** Two walks: if the second ends well and the first differs from it in failing only, then the first fails or is the same. *)
Definition same_or_fails (P : nat * T -> Prop) (f f' : back) : Prop :=
  forall v e st st', f' v e st = (st', Fine) -> Forall P (received st') -> f v e st = (st', Fine) \/ snd (f v e st) <> Fine.
Lemma grown_all : forall fine P a b s, grows fine a b s -> Forall P (received b) -> Forall P (received a).
Proof. intros fine P a b s (n & E & _) H. rewrite E in H. now apply Forall_app in H. Qed.
Lemma send_back_same : forall fine P (f f' : back), (forall v e st, grows fine st (fst (f' v e st)) (snd (f' v e st))) -> same_or_fails P f f' ->
  forall cs es st st', send_back g add divide f' cs es st = (st', Fine) -> Forall P (received st') -> send_back g add divide f cs es st = (st', Fine) \/ snd (send_back g add divide f cs es st) <> Fine.
Proof.
  intros fine P f f' G H cs. induction cs as [|c cs IH]; intros [|e es] st st' E HP; try (left; exact E). cbn [send_back] in *. cbv zeta in *. destruct (Nat.eqb _ _).
  - destruct (f' (from g c) e st) as [st1 []] eqn:E1; try discriminate. assert (HP1 : Forall P (received st1)).
    { eapply grown_all; [|exact HP]. pose proof (send_back_grows fine f' G cs es st1) as Q. rewrite E in Q. exact Q. }
    destruct (H _ _ _ _ E1 HP1) as [->|N]; [now apply IH|]. right. destruct (f (from g c) e st) as [? []]; cbn [snd] in *; congruence.
  - destruct (averaged add divide _ _ _) as [a|]; [|now apply IH].
    match type of E with context [f' (from g c) a ?s] => set (s0 := s) in *; destruct (f' (from g c) a s0) as [st1 []] eqn:E1 end; try discriminate. assert (HP1 : Forall P (received st1)).
    { eapply grown_all; [|exact HP]. match type of E with send_back _ _ _ _ _ _ ?s = _ => pose proof (send_back_grows fine f' G cs es s) as Q end. rewrite E in Q. exact Q. }
    destruct (H _ _ _ _ E1 HP1) as [->|N]; [now apply IH|]. right. destruct (f (from g c) a s0) as [? []]; cbn [snd] in *; congruence.
Qed.
Lemma backward_same : forall lb lb' (P : nat * T -> Prop), (forall ve, P ve -> lb (fst ve) (snd ve) = lb' (fst ve) (snd ve) \/ forall es, lb (fst ve) (snd ve) <> Ok es) ->
  forall fuel, same_or_fails P (backward g lb add divide fuel) (backward g lb' add divide fuel).
Proof.
  intros lb lb' P HP fuel. induction fuel as [|fuel IH]; intros v e st st' E F; [discriminate|]. cbn [backward] in *. cbv zeta in *. destruct (lb' v e) as [es| |] eqn:E'; try discriminate.
  destruct (_ && _) eqn:Eb; [discriminate|]. assert (Pv : P (v, e)).
  { pose proof (send_back_grows _ _ (backward_grows lb' fuel) (ins g v) es {| prior_error := prior_error st; received := received st ++ [(v, e)] |}) as Q. rewrite E in Q. cbn [fst snd] in Q. pose proof (grown_all _ _ _ _ _ Q F) as R. cbn [received] in R. apply Forall_app in R as [_ R]. now inversion R. }
  destruct (HP _ Pv) as [L|L]; cbn [fst snd] in L.
  - rewrite L, E', Eb. exact (send_back_same _ P _ _ (backward_grows lb' fuel) IH _ _ _ _ E F).
  - right. destruct (lb v e) as [x| |]; [exfalso; now apply (L x)|discriminate|discriminate].
Qed.
Lemma outputs_same : forall lb lb' (P : nat * T -> Prop), (forall ve, P ve -> lb (fst ve) (snd ve) = lb' (fst ve) (snd ve) \/ forall es, lb (fst ve) (snd ve) <> Ok es) ->
  forall fuel os st st', backward_outputs g lb' add divide fuel os st = (st', Fine) -> Forall P (received st') -> backward_outputs g lb add divide fuel os st = (st', Fine) \/ snd (backward_outputs g lb add divide fuel os st) <> Fine.
Proof.
  intros lb lb' P HP fuel os. induction os as [|[o e] os IH]; intros st st' E F; [now left|]. cbn [backward_outputs] in *. destruct (backward g lb' add divide fuel o e st) as [st1 []] eqn:E1; try discriminate.
  assert (F1 : Forall P (received st1)) by (eapply grown_all; [|exact F]; pose proof (outputs_grows lb' fuel os st1) as Q; rewrite E in Q; exact Q).
  destruct (backward_same lb lb' P HP fuel _ _ _ _ E1 F1) as [->|N]; [now apply IH|]. right. destruct (backward g lb add divide fuel o e st) as [? []]; cbn [snd] in *; congruence.
Qed.
End Blocked.

(** When the layers of some nodes fail on every error that can reach them, the walk fails. *)
Lemma blocked : forall g, well_formed g -> proper_outputs g -> outputs g <> [] -> no_dead_ends g ->
  exists fuel0, forall T (layer_back : nat -> T -> outcome (list T)) add divide (good : nat -> T -> Prop) (bad : nat -> bool) (some : nat -> T) fuel errors st,
  (forall v a b, good v a -> good v b -> good v (add a b)) -> (forall v a n, good v a -> good v (divide a n)) -> (forall v, node g v -> good v (some v)) ->
  (forall v e, node g v -> good v e -> if bad v then forall es, layer_back v e <> Ok es else exists es, layer_back v e = Ok es /\ (ins g v <> [] -> Forall2 (fun c x => good (from g c) x) (ins g v) es)) ->
  (exists v, node g v /\ bad v = true) -> fuel0 <= fuel -> Forall2 good (outputs g) errors -> idle g (prior_error st) -> received st = [] ->
  snd (backward_outputs g layer_back add divide fuel (combine (outputs g) errors) st) <> Fine.
Proof.
  intros g W P N Dd. destruct (errors_are_sent_back_partial g W P N Dd) as [fuel0 H]. exists fuel0. intros T lb add divide good bad some fuel errors st G1 G2 G3 G4 (v & Nv & Bv) Hf Fe Hi Hr.
  set (lb' := fun v e => if bad v then Ok (map (fun c => some (from g c)) (ins g v)) else lb v e).
  destruct (H T lb' add divide good fuel errors st) as (err & msg & calls & st' & E & _ & Er & (_ & C & _) & _ & _ & _ & _ & Gd); try assumption.
  - split; [exact G1|]. split; [exact G2|]. intros u e Nu Gu. unfold lb'. specialize (G4 u e Nu Gu). destruct (bad u); [|exact G4]. eexists. split; [reflexivity|]. intros _.
    assert (I : forall c, In c (ins g u) -> good (from g c) (some (from g c))) by (intros c Hc; apply G3; apply in_ins in Hc as [Hc _]; now apply W). clear - I.
    induction (ins g u) as [|c cs IH]; cbn [map]; constructor; [apply I; now left|apply IH; intros; apply I; now right].
  - rewrite Hr in Er. cbn [app] in Er.
    destruct (outputs_same g add divide lb lb' (fun ve => node g (fst ve) /\ good (fst ve) (snd ve))) with (fuel := fuel) (os := combine (outputs g) errors) (st := st) (st' := st') as [Q|Q]; try assumption.
    + intros [u e] [Nu Gu]. cbn [fst snd] in *. unfold lb'. specialize (G4 u e Nu Gu). destruct (bad u); [now right|now left].
    + rewrite Er. apply Forall_forall. intros x Hx. apply in_map_iff in Hx as (u & <- & Hu). cbn [fst snd]. apply C in Hu. split; [exact Hu|now apply Gd].
    + rewrite Q. pose proof (outputs_grows g add divide lb fuel (combine (outputs g) errors) st) as (new & En & Fn). rewrite Q in *. cbn [fst snd] in *. specialize (Fn eq_refl). rewrite Hr, Er in En. cbn [app] in En. subst new.
      rewrite Forall_forall in Fn. destruct (Fn (v, err v)) as (es & Es); [apply in_map_iff; exists v; split; [reflexivity|now apply C]|]. cbn [fst snd] in Es. specialize (G4 v (err v) Nv (Gd v Nv)). rewrite Bv in G4. now apply G4 in Es.
Qed.
