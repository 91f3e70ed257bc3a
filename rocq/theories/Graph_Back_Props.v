(** C53: the errors sent back through the network. *)
From Coq Require Import List Arith Bool Lia Reals Lra.
From Verif Require Import Outcome Graph_Model Graph_Spec Graph_Forward Graph_Backward Graph_Props Scaling_Spec.
Import ListNotations.
Local Open Scope nat_scope.

Lemma sum_errors_fold : forall {T} (add : T -> T -> T) l e, sum_errors add e l = fold_left add l e.
Proof. intros T add l. induction l as [|x l IH]; intros e; [reflexivity|]. cbn. apply IH. Qed.
Lemma forall2_nth : forall {A B} (Q : A -> B -> Prop) l m i x y, Forall2 Q l m -> nth_error l i = Some x -> nth_error m i = Some y -> Q x y.
Proof. intros A B Q l m i x y H. revert i. induction H as [|a b l m H HF IH]; intros [|i] E1 E2; try discriminate; [injection E1 as <-; injection E2 as <-; exact H|]. now apply (IH i). Qed.
Lemma nth_map : forall {A B} (f : A -> B) l i x, nth_error l i = Some x -> nth_error (map f l) i = Some (f x).
Proof. intros A B f l i x H. now apply map_nth_error. Qed.

Lemma errors_sent_back_strict : forall g, well_formed g -> proper_outputs g -> outputs g <> [] -> no_dead_ends g ->
  exists fuel0, forall T (layer_back : nat -> T -> outcome (list T)) add (divide : T -> nat -> T) (good : nat -> T -> Prop),
  (forall v a b, good v a -> good v b -> good v (add a b)) -> (forall v a n, good v a -> good v (divide a n)) ->
  (forall v e, node g v -> good v e -> exists es, layer_back v e = Ok es /\ length es = length (ins g v) /\ Forall2 (fun c x => good (from g c) x) (ins g v) es) ->
  forall fuel errors st, fuel0 <= fuel -> Forall2 good (outputs g) errors -> idle g (prior_error st) ->
  exists err msg calls st', backward_outputs g layer_back add divide fuel (combine (outputs g) errors) st = (st', Fine) /\ idle g (prior_error st') /\
    received st' = received st ++ map (fun v => (v, err v)) calls /\ in_reverse_order g calls /\
    map err (outputs g) = errors /\
    (forall v, node g v -> layer_back v (err v) = Ok (map msg (ins g v))) /\
    (forall v c, node g v -> outs g v = [c] -> err v = msg c) /\
    (forall v, node g v -> 2 <= length (outs g v) -> exists last, In last (outs g v) /\ err v = divide (fold_left add (sent_back g msg v) (msg last)) (length (outs g v))) /\
    (forall v, node g v -> good v (err v)).
Proof.
  intros g (Hnd & Hh & Hn & rank & Hr) [Ho1 Ho2] Hne Hd. destruct (rank_top g rank) as [top Ht]. exists (S top). intros T layer_back add divide good G1 G2 G3 fuel errors st Hfu Hgood Hid.
  assert (Hlen : length errors = length (outputs g)) by (clear - Hgood; induction Hgood; cbn; congruence).
  assert (x0 : T) by (destruct errors as [|x es]; [destruct (outputs g); [contradiction|discriminate]|exact x]).
  destruct (assign (outputs g) errors (fun _ => x0) Ho1 Hlen) as (given & Eg & _).
  destruct (outputs_ok g layer_back add divide good rank (received st) given Hr Hn G1 G2 G3 fuel (combine (outputs g) errors) (fun _ => false) [] given (fun _ => x0) st) as (P & M & err & msg & st' & E & I' & F' & O' & C' & H').
  - intros v Nv. specialize (Ht v Nv). lia.
  - now rewrite combine_fst.
  - intros o e Hin. destruct (combine_nth _ _ _ _ Hin) as (i & E1 & E2). pose proof (nth_error_In _ _ E1) as Hi. destruct (Ho2 o Hi) as [No Oo]. split; [exact No|]. split; [exact Oo|]. split; [auto|].
    split; [|now apply (forall2_nth good _ _ i o e Hgood)]. rewrite <- Eg in E2. rewrite (nth_map _ _ _ _ E1) in E2. congruence.
  - constructor; [intros; discriminate|intros ? ? []|intros; discriminate|intros c Cc _; now apply Hid|constructor|intros ? ? []|intros ? []|intros ? []|intros ? []|intros ? ? []|now rewrite app_nil_r].
  - intros u _ Iu Cu. unfold ready in Cu. destruct (outs g u); [contradiction|discriminate].
  - intros ? ? [].
  - intros ? ? [].
  - cbn [app] in *. rewrite combine_fst in H' by exact Hlen.
    assert (All : forall v, node g v -> In v M) by (eapply all_nodes_back; eauto).
    exists err, msg, M, st'. split; [exact E|]. split.
    { intros c Cc. apply (C' (from g c)); [|apply in_outs; now split]. apply All. now apply Hn. }
    split; [apply (b_received _ _ _ _ _ _ _ _ _ _ _ _ I')|]. split; [split; [apply (b_nodup _ _ _ _ _ _ _ _ _ _ _ _ I')|split]|].
    { intros v. split; [apply (b_node _ _ _ _ _ _ _ _ _ _ _ _ I')|apply All]. }
    { intros c Cc. apply (b_order _ _ _ _ _ _ _ _ _ _ _ _ I'); [exact Cc|]. apply All. now apply Hn. }
    assert (Er : forall v, node g v -> error_of g add divide given msg v (err v)) by (intros v Nv; apply (b_err _ _ _ _ _ _ _ _ _ _ _ _ I'); now apply All).
    split.
    { rewrite <- Eg. apply map_ext_in. intros o Hin. destruct (Ho2 o Hin) as [No Oo]. specialize (Er o No). unfold error_of in Er. now rewrite Oo in Er. }
    split; [intros v Nv; apply (b_back _ _ _ _ _ _ _ _ _ _ _ _ I'); now apply All|]. split.
    { intros v c Nv Oc. specialize (Er v Nv). unfold error_of in Er. now rewrite Oc in Er. }
    split.
    { intros v Nv Oc. specialize (Er v Nv). unfold error_of in Er. unfold sent_back. destruct (outs g v) as [|c1 [|c2 cs]]; cbn in Oc; try lia.
      destruct Er as (last & Hl & Ee). exists last. split; [exact Hl|]. now rewrite <- sum_errors_fold. }
    assert (Gm : forall v c, node g v -> In c (outs g v) -> good v (msg c)).
    { intros v c Nv Hc. apply in_outs in Hc as [Cc <-]. apply (b_good _ _ _ _ _ _ _ _ _ _ _ _ I'); [exact Cc|]. apply All. right. intros Z.
      assert (X : In c (ins g (to g c))) by (apply in_ins; now split). rewrite Z in X. contradiction. }
    intros v Nv. specialize (Er v Nv). unfold error_of in Er. specialize (Gm v). destruct (outs g v) as [|c1 [|c2 cs]] eqn:Eo.
    { assert (Io : In v (outputs g)) by now apply Hd. apply In_nth_error in Io as [i Ei]. rewrite Er. apply (forall2_nth good _ _ i v _ Hgood Ei). rewrite <- Eg. now apply nth_map. }
    { rewrite Er. apply Gm; [exact Nv|now left]. }
    { destruct Er as (last & Hl & ->). apply G2. apply sum_good; [exact G1|now apply Gm|]. intros x Hx. apply in_map_iff in Hx as (c & <- & Hc). now apply Gm. }
Qed.
(** What the layers of the inputs send back does not matter. *)
Definition kept {T} (g : graph) (layer_back : nat -> T -> outcome (list T)) (v : nat) (e : T) : outcome (list T) :=
  do es <- layer_back v e; Ok (match ins g v with [] => [] | _ => es end).
Lemma send_back_ext : forall {T} g (add : T -> T -> T) divide back back', (forall v e st, back v e st = back' v e st) ->
  forall cs es st, send_back g add divide back cs es st = send_back g add divide back' cs es st.
Proof.
  intros T g add divide back back' H cs. induction cs as [|c cs IH]; intros [|e es] st; try reflexivity. cbn [send_back]. cbv zeta. rewrite !H.
  destruct (Nat.eqb _ _); [destruct (back' _ _ _) as [? []]; auto|]. destruct (averaged _ _ _ _ _) as [a|]; [|apply IH]. rewrite H. destruct (back' _ _ _) as [? []]; auto.
Qed.
Lemma backward_kept : forall {T} g (layer_back : nat -> T -> outcome (list T)) add divide fuel v e st,
  backward g (kept g layer_back) add divide fuel v e st = backward g layer_back add divide fuel v e st.
Proof.
  intros T g layer_back add divide fuel. induction fuel as [|fuel IH]; intros v e st; [reflexivity|]. cbn [backward]. cbv zeta. unfold kept at 1.
  destruct (layer_back v e) as [es| |]; cbn [obind]; try reflexivity. destruct (ins g v) as [|c cs] eqn:Ei; [reflexivity|].
  destruct (negb false && _); [reflexivity|]. apply send_back_ext. exact IH.
Qed.
Lemma outputs_kept : forall {T} g (layer_back : nat -> T -> outcome (list T)) add divide fuel os st,
  backward_outputs g (kept g layer_back) add divide fuel os st = backward_outputs g layer_back add divide fuel os st.
Proof.
  intros T g layer_back add divide fuel os. induction os as [|[o e] os IH]; intros st; [reflexivity|]. cbn [backward_outputs]. rewrite backward_kept.
  destruct (backward _ _ _ _ _ _ _ _) as [? []]; auto.
Qed.

(** In a network without cycles and without dead ends, when no layer fails, the errors of the outputs
    reach every node once, after all its successors; and nothing is left for the next record.  A node with one
    successor gets that one's error.  A node with several gets the average of their errors with the one
    that came last counted twice. *)
(** Partial, C53, C72: the average over several consumers is refuted. *)
Theorem errors_are_sent_back_partial : forall g, well_formed g -> proper_outputs g -> outputs g <> [] -> no_dead_ends g ->
  exists fuel0, forall T (layer_back : nat -> T -> outcome (list T)) add divide good fuel errors st, layers_work g layer_back add divide good -> fuel0 <= fuel -> Forall2 good (outputs g) errors -> idle g (prior_error st) ->
  exists err msg calls st', backward_outputs g layer_back add divide fuel (combine (outputs g) errors) st = (st', Fine) /\ idle g (prior_error st') /\
    received st' = received st ++ map (fun v => (v, err v)) calls /\ in_reverse_order g calls /\
    map err (outputs g) = errors /\
    (forall v, node g v -> exists es, layer_back v (err v) = Ok es /\ (ins g v <> [] -> es = map msg (ins g v))) /\
    (forall v c, node g v -> outs g v = [c] -> err v = msg c) /\
    (forall v, node g v -> 2 <= length (outs g v) -> exists last, In last (outs g v) /\ err v = divide (fold_left add (sent_back g msg v) (msg last)) (length (outs g v))) /\
    (forall v, node g v -> good v (err v)).
Proof.
  intros g W P N D. destruct (errors_sent_back_strict g W P N D) as [fuel0 H0]. exists fuel0. intros T layer_back add divide good fuel errors st (G1 & G2 & G3) Hf Hg Hi.
  assert (H := H0 T (kept g layer_back) add divide good G1 G2). clear H0. refine ((fun K L => L (H K)) _ _); clear H.
  - intros v e Nv Gv. destruct (G3 v e Nv Gv) as (es & E & F). unfold kept. rewrite E. cbn [obind]. destruct (ins g v) as [|c cs]; [exists []; repeat split; constructor|].
    specialize (F ltac:(discriminate)). exists es. split; [reflexivity|]. split; [|exact F]. clear - F. induction F; cbn; congruence.
  - intros H. destruct (H fuel errors st Hf Hg Hi) as (err & msg & calls & st' & E & H1 & H2 & H3 & H4 & H5 & H6 & H7 & H8). rewrite outputs_kept in E.
    exists err, msg, calls, st'. repeat (split; [assumption|]). split; [|auto]. intros v Nv. specialize (H5 v Nv). unfold kept in H5.
    destruct (layer_back v (err v)) as [es| |]; try discriminate. exists es. split; [reflexivity|]. intros Hv. injection H5 as H5. destruct (ins g v); [contradiction|exact H5].
Qed.

(** ** The average (refuted) *)
Lemma fold_plus : forall l x, fold_left Rplus l x = (x + sum l)%R.
Proof. intros l. induction l as [|y l IH]; intros x; cbn; [lra|]. rewrite IH. unfold sum. lra. Qed.
(** Adding and dividing as reals, the node gets the average of the errors only if the error that came last is zero. *)
Lemma average_iff : forall l x, l <> [] -> ((fold_left Rplus l x / INR (length l))%R = average l <-> x = 0%R).
Proof.
  intros l x Hl. rewrite fold_plus. unfold average. assert (N : INR (length l) <> 0%R) by (apply not_0_INR; destruct l; [contradiction|discriminate]).
  split; intros H.
  - apply (f_equal (fun z => (z * INR (length l))%R)) in H. unfold Rdiv in H. rewrite !Rmult_assoc, Rinv_l in H by exact N. lra.
  - subst x. f_equal. lra.
Qed.
Theorem error_average_refuted : forall g (layer_back : nat -> R -> outcome (list R)) good,
  let divide := fun x n => (x / INR n)%R in
  well_formed g -> proper_outputs g -> outputs g <> [] -> no_dead_ends g -> layers_work g layer_back Rplus divide good ->
  exists fuel0, forall fuel errors st, fuel0 <= fuel -> Forall2 good (outputs g) errors -> idle g (prior_error st) ->
  exists err msg st' calls, backward_outputs g layer_back Rplus divide fuel (combine (outputs g) errors) st = (st', Fine) /\
    received st' = received st ++ map (fun v => (v, err v)) calls /\ (forall v, node g v -> In v calls) /\
    (forall v, node g v -> exists es, layer_back v (err v) = Ok es /\ (ins g v <> [] -> es = map msg (ins g v))) /\
    forall v, node g v -> 2 <= length (outs g v) -> exists last, In last (outs g v) /\ (err v = average (sent_back g msg v) <-> msg last = 0%R).
Proof.
  intros g layer_back good divide W P N D L. destruct (errors_are_sent_back_partial g W P N D) as [fuel0 H]. exists fuel0. intros fuel errors st Hfu Hg Hi.
  destruct (H _ layer_back Rplus divide good fuel errors st L Hfu Hg Hi) as (err & msg & calls & st' & E & _ & Er & (_ & Eo & _) & _ & Eb & _ & Em & _). exists err, msg, st', calls.
  split; [exact E|]. split; [exact Er|]. split; [intros v Nv; now apply Eo|]. split; [exact Eb|].
  intros v Nv Hv. destruct (Em v Nv Hv) as (last & Hl & Ee). exists last. split; [exact Hl|]. rewrite Ee. unfold divide.
  replace (length (outs g v)) with (length (sent_back g msg v)) by (unfold sent_back; apply map_length). apply average_iff.
  unfold sent_back. destruct (outs g v); [cbn in Hv; lia|discriminate].
Qed.
(** A node 0 with the two outputs 1 and 2, whose layers send the error on unchanged. *)
Definition fork : graph := {| conns := [(0, 1); (0, 2)]; heads := [0]; outputs := [1; 2] |}.
Definition pass {T} (g : graph) (v : nat) (e : T) : outcome (list T) := Ok (repeat e (length (ins g v))).
Definition nothing {T} : bstate T := {| prior_error := fun _ => None; received := [] |}.
Theorem fork_average_refuted : forall (e1 e2 : R) fuel, 3 <= fuel ->
  received (fst (backward_outputs fork (pass fork) Rplus (fun x n => (x / INR n)%R) fuel [(1, e1); (2, e2)] nothing)) = [(1, e1); (2, e2); (0, ((e2 + e1 + e2) / 2)%R)].
Proof. intros e1 e2 fuel Hf. destruct fuel as [|[|[|fuel]]]; try lia. reflexivity. Qed.

(** ** Dead ends (refuted) *)
(** When a node also feeds a node that is neither an output nor leads to one, no error reaches it: it is
    never trained. *)
Definition dead_end : graph := {| conns := [(0, 1); (0, 2)]; heads := [0]; outputs := [1] |}.
Theorem dead_end_refuted : forall {T} (add : T -> T -> T) divide e fuel, 2 <= fuel ->
  received (fst (backward_outputs dead_end (pass dead_end) add divide fuel [(1, e)] nothing)) = [(1, e)].
Proof. intros T add divide e fuel Hf. destruct fuel as [|[|fuel]]; try lia. reflexivity. Qed.

(** ** Examples *)
Example diamond_no_dead_ends : no_dead_ends diamond /\ outputs diamond <> [].
Proof.
  split; [|discriminate]. intros v Nv Ov. destruct v as [|[|[|[|v]]]]; try discriminate; [now left|]. exfalso. destruct Nv as [[H|[]]|H]; [discriminate|]. apply H. reflexivity.
Qed.
Example diamond_layers_work : layers_work diamond (pass diamond) Rplus (fun x n => (x / INR n)%R) (fun _ _ => True).
Proof.
  split; [auto|]. split; [auto|]. intros v e _ _. exists (repeat e (length (ins diamond v))). split; [reflexivity|]. intros _.
  induction (ins diamond v) as [|c l IH]; cbn; constructor; auto.
Qed.
Example diamond_errors : map fst (received (fst (backward_outputs diamond (pass diamond) Nat.add (fun x n => x) 5 [(3, 7)] nothing))) = [3; 1; 2; 0].
Proof. reflexivity. Qed.

Print Assumptions errors_are_sent_back_partial.
Print Assumptions error_average_refuted.
Print Assumptions fork_average_refuted.
Print Assumptions dead_end_refuted.
