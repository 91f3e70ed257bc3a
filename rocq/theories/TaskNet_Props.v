(** C101: the network that is made for a task fits the columns of its dataset. *)
From Coq Require Import List Arith Bool NArith ZArith QArith Reals Lia Lra.
From Verif Require Import Outcome Chars NumText_Model Tensor_Model Tensor_Spec Graph_Model Graph_Spec Net_Model Net_Spec Net_Train Net_Props ModelFile_Model ModelFile_Spec TaskNet_Model TaskNet_Spec TaskNet_Proofs TaskNet_Shapes TaskNet_Front TaskNet_Whole.
Import ListNotations.
Local Open Scope nat_scope.

(** ** Predicting *)
(** Whatever the goal and the complexity, the network can be built, and it predicts for every record that is shaped like
    the given columns, whatever the values of the parameters: one tensor for each expected column, in their order
    and with their shapes. *)
(** Partial, C101: expected columns have one row and one channel, and given columns are as in [usable]; with a picture
    beside other columns, see [picture_beside_others_refuted]. *)
Theorem task_network_predicts_partial : forall given expected g complexity, usable given -> Forall (fun s => exists e, s = (1, e, 1)%N) expected -> expected <> [] ->
  exists prog, task_program given expected g complexity = Ok prog /\ forall o r rb l, exists d net, run prog (new_dsl o r rb l) = Ok d /\ build d = Ok net /\
  exists fuel0, forall fuel ps random training xs st, fuel0 <= fuel -> all_fit d ps -> given_of given xs -> idle (network d net) (next_input st) ->
  exists st' ys, predict (network d net) (forward_at d ps random training) fuel xs st = (st', Ok ys) /\ truth_of expected ys /\ idle (network d net) (next_input st').
Proof.
  intros given expected g complexity U He Nx. destruct (task_net given expected g complexity U He Nx) as (prog & Ep & J & H). exists prog. split; [exact Ep|]. intros o r rb l.
  destruct (H o r rb l) as (d & net & f & Rn & Bd & _ & OE & _ & _ & _ & W & Gv & Tr & _). exists d, net. split; [exact Rn|]. split; [exact Bd|].
  destruct (network_predicts_partial prog o r rb l d net f J Rn Bd OE (fun id v E => proj1 (W id v E))) as [fuel0 P]. exists fuel0. intros fuel ps random training xs st Hf F G I.
  destruct (P fuel ps random training xs st Hf F (Gv xs G) I) as (st' & ys & E & Y & I'). exists st', ys. split; [exact E|]. split; [now apply Tr|exact I'].
Qed.
Print Assumptions task_network_predicts_partial.

(** ** Training *)
(** With one expected column, any number of batches of any size can be trained, with every loss and every optimizer that keeps
    shapes. *)
(** Partial, C101: as above, and only one expected column, see [several_expected_refuted]. *)
Theorem task_network_trains_partial : forall given e g complexity, usable given ->
  exists prog, task_program given [(1, e, 1)%N] g complexity = Ok prog /\ forall o r rb l, exists d net, run prog (new_dsl o r rb l) = Ok d /\ build d = Ok net /\
  exists fuel0, forall fuel L batches ps, fuel0 <= fuel -> In L losses -> all_fit d ps ->
  Forall (fun batch => keeps_shape (fst batch) /\ snd batch <> [] /\ Forall (fun x => given_of given (Net_Model.given x) /\ truth_of [(1, e, 1)%N] (truth x)) (snd batch)) batches ->
  exists ps', train d (network d net) L fuel batches ps = Ok ps' /\ all_fit d ps'.
Proof.
  intros given e g complexity U. destruct (task_net given [(1, e, 1)%N] g complexity U) as (prog & Ep & J & H); [repeat constructor; eauto|discriminate|]. exists prog. split; [exact Ep|]. intros o r rb l.
  destruct (H o r rb l) as (d & net & f & Rn & Bd & NV & OE & EO & NS & _ & W & Gv & Tr & _). exists d, net. split; [exact Rn|]. split; [exact Bd|].
  destruct (network_trains_partial prog o r rb l d net f J Rn Bd NV OE EO (NS eq_refl) (fun id v E => proj1 (W id v E))) as [fuel0 P]. { intros id v E. destruct (proj2 (W id v E)) as [S|[[] _]]. exact S. }
  exists fuel0. intros fuel L batches ps Hf HL F Hb. apply (P fuel L batches ps Hf HL F). eapply Forall_impl; [|exact Hb]. intros [change rs] (K1 & K2 & K3). cbn [fst snd] in *. split; [exact K1|]. split; [exact K2|].
  eapply Forall_impl; [|exact K3]. intros x [X1 X2]. split; [now apply Gv|now apply Tr].
Qed.
Print Assumptions task_network_trains_partial.

(** ** Several expected columns (refuted) *)
(** The network of a task with several expected columns cannot be trained: every first batch ends with an exception. *)
Theorem several_expected_refuted : forall given expected g complexity, usable given -> Forall (fun s => exists e, s = (1, e, 1)%N) expected -> 2 <= length expected ->
  exists prog, task_program given expected g complexity = Ok prog /\ forall o r rb l, exists d net, run prog (new_dsl o r rb l) = Ok d /\ build d = Ok net /\
  exists fuel0, forall fuel L batches ps, fuel0 <= fuel -> In L losses -> all_fit d ps -> batches <> [] ->
  Forall (fun batch => keeps_shape (fst batch) /\ Forall (fun x => given_of given (Net_Model.given x) /\ truth_of expected (truth x)) (snd batch)) batches ->
  train d (network d net) L fuel batches ps = Throw.
Proof.
  intros given expected g complexity U He L. destruct (task_net given expected g complexity U He) as (prog & Ep & J & H); [destruct expected; [cbn in L; lia|discriminate]|]. exists prog. split; [exact Ep|]. intros o r rb l.
  destruct (H o r rb l) as (d & net & f & Rn & Bd & NV & OE & EO & _ & Fk & W & Gv & Tr & _). exists d, net. split; [exact Rn|]. split; [exact Bd|]. destruct (Fk L) as (id & v & Ev & Nv & Fv).
  destruct (forked_network_refuted prog o r rb l d net f id v J Rn Bd OE EO (fun id v E => proj1 (W id v E))) as [fuel0 P]; [|exact Ev|exact Nv|exact Fv|]. { intros i x E. destruct (proj2 (W i x E)) as [S|[[] _]]. exact S. }
  exists fuel0. intros fuel L' batches ps Hf HL F Nb Hb. apply (P fuel L' batches ps Hf HL F Nb). eapply Forall_impl; [|exact Hb]. intros [change rs] (K1 & K3). cbn [fst snd] in *. split; [exact K1|].
  eapply Forall_impl; [|exact K3]. intros x [X1 X2]. split; [now apply Gv|now apply Tr].
Qed.
Print Assumptions several_expected_refuted.

(** ** A colour picture beside other columns (refuted) *)
(** When there are several given columns and one of them has several rows and several channels, as a colour picture has, the
    network is built, but the first record of the training ends with an exception. *)
Theorem picture_beside_others_refuted : forall given expected g complexity, 2 <= length given -> Forall (fun c => let '(h, w, k) := size c in (1 <= h /\ 1 <= w /\ (k = 1 \/ 2 <= h /\ 2 <= k))%N) given ->
  (exists c h w k, In c given /\ size c = (h, w, k) /\ (2 <= h)%N /\ (2 <= k)%N) -> Forall (fun s => exists e, s = (1, e, 1)%N) expected -> expected <> [] ->
  exists prog, task_program given expected g complexity = Ok prog /\ forall o r rb l, exists d net, run prog (new_dsl o r rb l) = Ok d /\ build d = Ok net /\
  exists fuel0, forall fuel L batches ps, fuel0 <= fuel -> In L losses -> all_fit d ps -> batches <> [] ->
  Forall (fun batch => snd batch <> [] /\ Forall (fun x => given_of given (Net_Model.given x) /\ truth_of expected (truth x)) (snd batch)) batches ->
  train d (network d net) L fuel batches ps = Throw.
Proof.
  intros given expected g complexity L2 HF (c & h & w & k & Ic & Es & Hh & Hk) He Nx.
  destruct (several_net True given expected g complexity L2) as (prog & Ep & J & H); [|exact He|exact Nx|].
  { eapply Forall_impl; [|exact HF]. intros x Hx. cbv beta in Hx. unfold joinable. destruct (size x) as [[h' w'] k']. destruct Hx as (X1 & X2 & [X3|[X3 X4]]); auto 8. }
  exists prog. split; [exact Ep|]. intros o r rb l. destruct (H o r rb l) as (d & net & f & Rn & Bd & NV & OE & EO & _ & _ & W & Gv & Tr & _ & Cl). exists d, net. split; [exact Rn|]. split; [exact Bd|].
  destruct (clogged_network_refuted prog o r rb l d net f J Rn Bd OE EO (fun id v E => proj1 (W id v E))) as [fuel0 P].
  { intros id v E. destruct (proj2 (W id v E)) as [S|[_ S]]; auto. }
  { apply In_nth_error in Ic as [i Hi]. destruct (Cl i c Hi L2) as (v & Ev & Et & Ea & Ei). exists (S i), v. split; [exact Ev|]. unfold clogged, arriving_shapes. rewrite Et, Ea. unfold input_shape. rewrite Ei, Es. cbn [hd nat_shape existsb several_rows_and_channels].
    rewrite Forall_forall in HF. specialize (HF c (nth_error_In _ _ Hi)). rewrite Es in HF. destruct HF as (_ & Hw & _).
    destruct (Nat.eqb_spec (N.to_nat h) 1); [lia|]. replace (1 <? N.to_nat k) with true by (symmetry; apply Nat.ltb_lt; lia). replace (0 <? N.to_nat h * N.to_nat w) with true by (symmetry; apply Nat.ltb_lt; nia). reflexivity. }
  exists fuel0. intros fuel L' batches ps Hf HL F Nb Hb. apply (P fuel L' batches ps Hf HL F Nb). eapply Forall_impl; [|exact Hb]. intros [change rs] (K1 & K3). cbn [fst snd] in *. split; [exact K1|].
  eapply Forall_impl; [|exact K3]. intros x [X1 X2]. split; [now apply Gv|now apply Tr].
Qed.
Print Assumptions picture_beside_others_refuted.

(** ** Examples *)
Definition number : column := {| picture := false; size := (1, 1, 1)%N |}.
Definition grey : column := {| picture := true; size := (28, 28, 1)%N |}.
Definition colour : column := {| picture := true; size := (28, 28, 3)%N |}.
Example ex_usable : usable [colour] /\ usable [number] /\ usable [grey; number; number].
Proof. split; [left; cbn; repeat split; lia|]. split; [right; cbn; repeat split; lia|]. split; [repeat (apply Forall_cons; [cbn; lia|]); apply Forall_nil|reflexivity]. Qed.
(** A dog, a cat or a bird, from a colour picture. *)
Example ex_animals : exists prog, task_program [colour] [(1, 3, 1)%N] Other_goal 10 = Ok prog /\ length (parents_of prog) = 6.
Proof. eexists. split; reflexivity. Qed.
Example ex_given : given_of [grey; number] [uniform 28 28 1 0%R; uniform 1 1 1 5%R] /\ truth_of [(1, 3, 1)%N] [uniform 1 3 1 1%R].
Proof. split; repeat (apply Forall2_cons; [cbn; eexists; repeat split|]); apply Forall2_nil. Qed.
Example ex_several : Forall (fun s => exists e, s = (1, e, 1)%N) [(1, 3, 1)%N; (1, 1, 1)%N] /\ 2 <= length [(1, 3, 1)%N; (1, 1, 1)%N].
Proof. split; [repeat constructor; eauto|cbn; lia]. Qed.
Example ex_beside : 2 <= length [colour; number] /\ Forall (fun c => let '(h, w, k) := size c in (1 <= h /\ 1 <= w /\ (k = 1 \/ 2 <= h /\ 2 <= k))%N) [colour; number] /\
  exists c h w k, In c [colour; number] /\ size c = (h, w, k) /\ (2 <= h)%N /\ (2 <= k)%N.
Proof. split; [cbn; lia|]. split; [repeat (apply Forall_cons; [cbn; lia|]); apply Forall_nil|]. exists colour, 28%N, 28%N, 3%N. split; [now left|]. split; [reflexivity|]. lia. Qed.
