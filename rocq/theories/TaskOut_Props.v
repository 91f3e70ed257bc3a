(** C102: what the network of a task can predict. *)
From Coq Require Import List Arith Bool NArith ZArith QArith Reals Lia Lra.
From Verif Require Import Outcome Tensor_Model Tensor_Spec Reduce_Spec Activation_Model Activation_Props Graph_Model Graph_Spec Net_Model Net_Spec Net_Props ModelFile_Model ModelFile_Spec TaskNet_Model TaskNet_Spec TaskNet_Whole TaskOut_Spec TaskOut_Proofs.
From Verif Require Scaling_Model Scaling_Spec Scaling_Props Scaling_Proofs.
Import ListNotations.
Local Open Scope nat_scope.

Lemma fractions_of : forall z e y, shaped z (1, e, 1) -> activate (activation_of sigmoid) z = Ok y -> fractions e y.
Proof.
  intros z e y [f Hf] E. cbn [activation_of] in E. destruct (activation_elementwise Sigmoid z 1 e 1 f) as (u & Eu & U); [discriminate|exact Hf|]. rewrite E in Eu. injection Eu as <-.
  eexists. split; [exact U|]. intros j Hj. destruct (activation_range_and_order Sigmoid) as [Q _]; [discriminate|]. exact (Q (f 0 j 0)).
Qed.
Lemma distribution_of : forall z e y, 0 < e -> shaped z (1, e, 1) -> activate (activation_of softmax) z = Ok y -> distribution e y.
Proof.
  intros z e y He [f Hf] E. cbn [activation_of activate] in E. destruct (softmax_is_a_distribution z 1 e 1 f Hf) as (u & h & Eu & U & P & S); [lia|]. rewrite E in Eu. injection Eu as <-.
  exists h. split; [exact U|]. split; [intros; apply P|]. unfold elements in S. cbn [seq map concat] in S. rewrite !app_nil_r in S. exact S.
Qed.
Lemma task_outputs : forall given expected g complexity, usable given -> Forall (fun s => exists e, s = (1, e, 1)%N) expected -> expected <> [] ->
  exists prog, task_program given expected g complexity = Ok prog /\ forall o r rb l, exists d net, run prog (new_dsl o r rb l) = Ok d /\ build d = Ok net /\
  exists fuel0, forall fuel ps random training xs st, fuel0 <= fuel -> all_fit d ps -> given_of given xs -> idle (network d net) (next_input st) ->
  exists st' zs ys, predict (network d net) (forward_at d ps random training) fuel xs st = (st', Ok ys) /\ truth_of expected zs /\
    Forall2 (fun z y => activate (activation_of (if categorical expected g then softmax else sigmoid)) z = Ok y) zs ys /\ idle (network d net) (next_input st').
Proof.
  intros given expected g complexity U He Nx. destruct (task_net given expected g complexity U He Nx) as (prog & Ep & J & H). exists prog. split; [exact Ep|]. intros o r rb l.
  destruct (H o r rb l) as (d & net & f & Rn & Bd & _ & OE & _ & _ & _ & W & Gv & Tr & La & _). exists d, net. split; [exact Rn|]. split; [exact Bd|].
  destruct (outputs_activated prog o r rb l d net f J Rn Bd OE (fun id v E => proj1 (W id v E)) _ La) as [fuel0 P]. exists fuel0. intros fuel ps random training xs st Hf F G I.
  destruct (P fuel ps random training xs st Hf F (Gv xs G) I) as (st' & zs & ys & E & Z & A & I'). exists st', zs, ys. split; [exact E|]. split; [now apply Tr|]. auto.
Qed.

(** ** One expected column of several values *)
(** When the goal is not speed, the prediction for a column of several values, as a label has, is a distribution: all values are positive, and they add up to 1. *)
(** Partial, C102: in exact arithmetic (in 32 bits a value can be rounded to 0), for one row. *)
Theorem label_prediction_partial : forall given e g complexity, usable given -> (2 <= e)%N -> g <> Speed ->
  exists prog, task_program given [(1, e, 1)%N] g complexity = Ok prog /\ forall o r rb l, exists d net, run prog (new_dsl o r rb l) = Ok d /\ build d = Ok net /\
  exists fuel0, forall fuel ps random training xs st, fuel0 <= fuel -> all_fit d ps -> given_of given xs -> idle (network d net) (next_input st) ->
  exists st' y, predict (network d net) (forward_at d ps random training) fuel xs st = (st', Ok [y]) /\ distribution (N.to_nat e) y.
Proof.
  intros given e g complexity U He Ng. destruct (task_outputs given [(1, e, 1)%N] g complexity U) as (prog & Ep & H); [repeat constructor; eauto|discriminate|]. exists prog. split; [exact Ep|]. intros o r rb l.
  destruct (H o r rb l) as (d & net & Rn & Bd & fuel0 & P). exists d, net. split; [exact Rn|]. split; [exact Bd|]. exists fuel0. intros fuel ps random training xs st Hf F G I.
  destruct (P fuel ps random training xs st Hf F G I) as (st' & zs & ys & E & Z & A & _). inversion Z as [|? z ? zs' Z1 Z2]; subst. inversion Z2; subst. inversion A as [|? y ? ys' A1 A2]; subst. inversion A2; subst. exists st', y. split; [exact E|].
  assert (C : categorical [(1, e, 1)%N] g = true). { unfold categorical, task_loss. destruct g; try contradiction; cbn [is_speed]; destruct (N.eqb_spec e 1); try lia; reflexivity. }
  rewrite C in A1. apply (distribution_of z); [lia|exact Z1|exact A1].
Qed.
Print Assumptions label_prediction_partial.

(** ** All others *)
(** With the goal speed, with several expected columns and with an expected column of one value, all predicted values are between 0 and 1. *)
(** Partial, C102: as above. *)
Theorem number_prediction_partial : forall given expected g complexity, usable given -> Forall (fun s => exists e, s = (1, e, 1)%N) expected -> expected <> [] ->
  g = Speed \/ expected = [(1, 1, 1)%N] \/ 2 <= length expected ->
  exists prog, task_program given expected g complexity = Ok prog /\ forall o r rb l, exists d net, run prog (new_dsl o r rb l) = Ok d /\ build d = Ok net /\
  exists fuel0, forall fuel ps random training xs st, fuel0 <= fuel -> all_fit d ps -> given_of given xs -> idle (network d net) (next_input st) ->
  exists st' ys, predict (network d net) (forward_at d ps random training) fuel xs st = (st', Ok ys) /\ Forall2 (fun s y => fractions (width s) y) expected ys.
Proof.
  intros given expected g complexity U He Nx K. destruct (task_outputs given expected g complexity U He Nx) as (prog & Ep & H). exists prog. split; [exact Ep|]. intros o r rb l.
  destruct (H o r rb l) as (d & net & Rn & Bd & fuel0 & P). exists d, net. split; [exact Rn|]. split; [exact Bd|]. exists fuel0. intros fuel ps random training xs st Hf F G I.
  destruct (P fuel ps random training xs st Hf F G I) as (st' & zs & ys & E & Z & A & _). exists st', ys. split; [exact E|].
  assert (C : categorical expected g = false).
  { unfold categorical, task_loss. destruct K as [->|[->|L]].
    - destruct expected as [|[[? ?] ?] [|]]; reflexivity.
    - destruct g; reflexivity.
    - destruct expected as [|[[? ?] ?] [|]]; cbn in L; try lia. reflexivity. }
  rewrite C in A. clear - Z A He. unfold truth_of in Z. revert ys A. induction Z as [|s z expected zs Z1 Z2 IH]; intros ys A; inversion A as [|? y ? ys' A1 A2]; subst; constructor.
  - inversion He as [|? ? [e ->] _]; subst. apply (fractions_of z); [exact Z1|exact A1].
  - inversion He; subst. apply IH; assumption.
Qed.
Print Assumptions number_prediction_partial.

(** ** Numbers, as they are shown *)
Import Scaling_Model Scaling_Spec Scaling_Props.
Local Open Scope R_scope.
Lemma row_single : forall y, fractions 1 y -> exists x, row_of y [x] /\ 0 < x < 1.
Proof. intros y (f & (R1 & C1 & K1 & G) & H). exists (f 0%nat 0%nat 0%nat). split; [|apply H; lia]. split; [exact R1|]. split; [exact C1|]. split; [exact K1|]. intros [|[|j]] x E; cbn in E; try discriminate. injection E as <-. apply G; lia. Qed.
(** The predictions for one column of one number each, when they are shown again as numbers of this column, lie strictly between the
    smallest and the largest number of the column if these do not deviate much. *)
(** Partial, C102: in exact arithmetic; only for columns with a standard deviation of at most 1: for others see [prediction_below_average_refuted]. *)
Theorem number_in_range_partial : forall given g complexity (column : list (list R)), usable given ->
  (forall x, In x (concat column) -> Rabs x <= dbl_max) -> sqrt (variance (concat column)) <= 1 -> (exists a b, In a (concat column) /\ In b (concat column) /\ a <> b) ->
  exists prog, task_program given [(1, 1, 1)%N] g complexity = Ok prog /\ forall o r rb l, exists d net, run prog (new_dsl o r rb l) = Ok d /\ build d = Ok net /\
  exists fuel0, forall fuel ps random training xs st, (fuel0 <= fuel)%nat -> all_fit d ps -> given_of given xs -> idle (network d net) (next_input st) ->
  exists st' y x, predict (network d net) (forward_at d ps random training) fuel xs st = (st', Ok [y]) /\ row_of y [x] /\
    exists low high, is_minimum (concat column) low /\ is_maximum (concat column) high /\ low < unscale exact (column_scaling column) x < high.
Proof.
  intros given g complexity column U Hb Hd (a & b & Ia & Ib & Nab). assert (Hne : concat column <> []) by (intros Z; rewrite Z in Ia; destruct Ia).
  destruct (number_prediction_partial given [(1, 1, 1)%N] g complexity U) as (prog & Ep & H); [repeat constructor; eauto|discriminate|auto|]. exists prog. split; [exact Ep|]. intros o r rb l.
  destruct (H o r rb l) as (d & net & Rn & Bd & fuel0 & P). exists d, net. split; [exact Rn|]. split; [exact Bd|]. exists fuel0. intros fuel ps random training xs st Hf F G I.
  destruct (P fuel ps random training xs st Hf F G I) as (st' & ys & E & Z). inversion Z as [|? y ? ys' Z1 Z2]; subst. inversion Z2; subst. apply row_single in Z1 as (x & Rx & X). exists st', y, x. split; [exact E|]. split; [exact Rx|].
  destruct (streamed_statistics column Hne Hb) as (_ & D & Mi & Ma). exists (s_min (column_stats column)), (s_max (column_stats column)). split; [exact Mi|]. split; [exact Ma|].
  assert (L : s_min (column_stats column) < s_max (column_stats column)).
  { destruct Mi as [_ Mi]. destruct Ma as [_ Ma]. pose proof (Mi a Ia). pose proof (Mi b Ib). pose proof (Ma a Ia). pose proof (Ma b Ib). destruct (Rtotal_order a b) as [Q|[Q|Q]]; [lra|contradiction|lra]. }
  unfold unscale, column_scaling, denormalise. cbn [is_standardized is_normalized min_value max_value exact a_add a_sub a_mul num]. rewrite D. destruct (Rlt_dec 1 _); [lra|]. clear - L X. nra.
Qed.
Print Assumptions number_in_range_partial.

(** ** Numbers that deviate (refuted) *)
(** When no number of the column is negative and their standard deviation is above 1, every prediction, whatever the network was trained with, is shown as
    more than the average of the column.  Numbers below the average are never predicted. *)
Theorem prediction_below_average_refuted : forall given g complexity (column : list (list R)), usable given ->
  (forall x, In x (concat column) -> 0 <= x <= dbl_max) -> 1 < sqrt (variance (concat column)) ->
  exists prog, task_program given [(1, 1, 1)%N] g complexity = Ok prog /\ forall o r rb l, exists d net, run prog (new_dsl o r rb l) = Ok d /\ build d = Ok net /\
  exists fuel0, forall fuel ps random training xs st, (fuel0 <= fuel)%nat -> all_fit d ps -> given_of given xs -> idle (network d net) (next_input st) ->
  exists st' y x, predict (network d net) (forward_at d ps random training) fuel xs st = (st', Ok [y]) /\ row_of y [x] /\ average (concat column) < unscale exact (column_scaling column) x.
Proof.
  intros given g complexity column U Hb Hd.
  assert (Hne : concat column <> []). { intros Z. rewrite Z in Hd. unfold variance, sum in Hd. cbn [map fold_right length INR] in Hd. replace (0 / 0) with 0 in Hd by (unfold Rdiv; ring). rewrite sqrt_0 in Hd. lra. }
  destruct (number_prediction_partial given [(1, 1, 1)%N] g complexity U) as (prog & Ep & H); [repeat constructor; eauto|discriminate|auto|]. exists prog. split; [exact Ep|]. intros o r rb l.
  destruct (H o r rb l) as (d & net & Rn & Bd & fuel0 & P). exists d, net. split; [exact Rn|]. split; [exact Bd|]. exists fuel0. intros fuel ps random training xs st Hf F G I.
  destruct (P fuel ps random training xs st Hf F G I) as (st' & ys & E & Z). inversion Z as [|? y ? ys' Z1 Z2]; subst. inversion Z2; subst. apply row_single in Z1 as (x & Rx & X). exists st', y, x. split; [exact E|]. split; [exact Rx|].
  assert (Hb' : forall x, In x (concat column) -> Rabs x <= dbl_max) by (intros z Hz; specialize (Hb z Hz); rewrite Rabs_pos_eq; lra).
  destruct (streamed_statistics column Hne Hb') as (Me & D & [Mi1 Mi2] & [Ma1 Ma2]).
  assert (L : s_min (column_stats column) < s_max (column_stats column)).
  { destruct (Req_dec (s_min (column_stats column)) (s_max (column_stats column))) as [Q|Q]; [exfalso|specialize (Mi2 _ Ma1); lra].
    assert (All : forall z, In z (concat column) -> z = s_min (column_stats column)) by (intros z Hz; specialize (Mi2 z Hz); specialize (Ma2 z Hz); lra).
    assert (V : variance (concat column) = 0).
    { unfold variance. assert (A : average (concat column) = s_min (column_stats column)).
      { unfold average. assert (S : forall l, (forall z, In z l -> z = s_min (column_stats column)) -> sum l = INR (length l) * s_min (column_stats column)).
        { clear. intros l Hl. induction l as [|z l IH]; [cbn; lra|]. change (sum (z :: l)) with (z + sum l). cbn [length]. rewrite IH by (intros; apply Hl; now right). rewrite (Hl z (or_introl eq_refl)), S_INR. ring. }
        rewrite (S _ All). field. apply not_0_INR. destruct (concat column); [contradiction|discriminate]. }
      rewrite A. assert (S : forall l, (forall z, In z l -> z = s_min (column_stats column)) -> sum (map (fun x => (x - s_min (column_stats column)) ^ 2) l) = 0).
      { clear. intros l Hl. induction l as [|z l IH]; [reflexivity|]. cbn [map]. change (sum (?a :: ?b)) with (a + sum b). rewrite IH by (intros; apply Hl; now right). rewrite (Hl z (or_introl eq_refl)). ring. }
      rewrite (S _ All). unfold Rdiv. ring. }
    rewrite V, sqrt_0 in Hd. lra. }
  pose proof (proj1 (Hb _ Mi1)) as P0. unfold unscale, column_scaling, denormalise, unstandardise. cbn [is_standardized is_normalized min_value max_value mean standard_deviation exact a_add a_sub a_mul num]. rewrite D, Me.
  destruct (Rlt_dec 1 _); [|contradiction]. revert P0 L X Hd. generalize (s_min (column_stats column)) (s_max (column_stats column)) (sqrt (variance (concat column))) (average (concat column)). clear. intros lo hi s m P0 L X Hd.
  assert (0 < x * (hi - lo)) by (apply Rmult_lt_0_compat; lra). assert (0 < (x * (hi - lo) + lo) * s) by (apply Rmult_lt_0_compat; lra). lra.
Qed.
Print Assumptions prediction_below_average_refuted.

(** ** Several numbers in one column (refuted) *)
(** For a column of several numbers each, when the goal is not speed, all predictions, shown as numbers of the column, have the same sum,
    whatever the records and the trained parameters. *)
Theorem several_numbers_refuted : forall given e g complexity (column : list (list R)), usable given -> (2 <= e)%N -> g <> Speed ->
  exists prog total, task_program given [(1, e, 1)%N] g complexity = Ok prog /\ forall o r rb l, exists d net, run prog (new_dsl o r rb l) = Ok d /\ build d = Ok net /\
  exists fuel0, forall fuel ps random training xs st, (fuel0 <= fuel)%nat -> all_fit d ps -> given_of given xs -> idle (network d net) (next_input st) ->
  exists st' y row, predict (network d net) (forward_at d ps random training) fuel xs st = (st', Ok [y]) /\ row_of y row /\ length row = N.to_nat e /\ sum (map (unscale exact (column_scaling column)) row) = total.
Proof.
  intros given e g complexity column U He Ng. destruct (label_prediction_partial given e g complexity U He Ng) as (prog & Ep & H).
  assert (A : exists p q, forall x, unscale exact (column_scaling column) x = x * p + q).
  { unfold unscale, column_scaling, denormalise, unstandardise. cbn [is_standardized is_normalized min_value max_value mean standard_deviation exact a_add a_sub a_mul num].
    generalize (s_min (column_stats column)) (s_max (column_stats column)) (s_deviation (column_stats column)) (mean_result (column_stats column)). intros lo hi s m. destruct (Rlt_dec 1 s); [exists ((hi - lo) * s), (lo * s + m)|exists (hi - lo), lo]; intros x; cbn [exact num] in *; ring. }
  destruct A as (p & q & A). exists prog, (p + INR (N.to_nat e) * q). split; [exact Ep|]. intros o r rb l.
  destruct (H o r rb l) as (d & net & Rn & Bd & fuel0 & P). exists d, net. split; [exact Rn|]. split; [exact Bd|]. exists fuel0. intros fuel ps random training xs st Hf F G I.
  destruct (P fuel ps random training xs st Hf F G I) as (st' & y & E & f & (R1 & C1 & K1 & Gf) & _ & Su). exists st', y, (map (fun j => f 0%nat j 0%nat) (seq 0 (N.to_nat e))). split; [exact E|].
  split.
  { split; [exact R1|]. split; [now rewrite map_length, seq_length|]. split; [exact K1|]. intros j x Hj. rewrite nth_error_map in Hj. destruct (nth_error (seq 0 (N.to_nat e)) j) as [k|] eqn:Ek; [|discriminate]. cbn in Hj. injection Hj as <-.
    assert (L : (j < N.to_nat e)%nat). { rewrite <- (seq_length (N.to_nat e) 0). apply nth_error_Some. congruence. } apply (nth_error_nth _ _ 0%nat) in Ek. rewrite seq_nth in Ek by exact L. subst k. apply Gf; lia. }
  split; [now rewrite map_length, seq_length|].
  assert (S : forall l, sum (map (unscale exact (column_scaling column)) l) = sum l * p + INR (length l) * q).
  { clear - A. intros l. induction l as [|x l IH]; [cbn; ring|]. cbn [map]. change (sum (unscale exact (column_scaling column) x :: map (unscale exact (column_scaling column)) l)) with (unscale exact (column_scaling column) x + sum (map (unscale exact (column_scaling column)) l)).
    change (sum (x :: l)) with (x + sum l). cbn [length]. rewrite IH, A, S_INR. cbn [exact num]. ring. }
  rewrite S, Su, map_length, seq_length. ring.
Qed.
Print Assumptions several_numbers_refuted.

(** ** Examples *)
(** Whether it rains, from a picture; the colour of a thing, from two numbers. *)
Example ex_tasks : usable [{| picture := true; size := (28, 28, 3)%N |}] /\ usable [{| picture := false; size := (1, 1, 1)%N |}; {| picture := false; size := (1, 1, 1)%N |}] /\ Other_goal <> Speed.
Proof. split; [left; cbn; repeat split; lia|]. split; [|discriminate]. split; [repeat (apply Forall_cons; [cbn; lia|]); apply Forall_nil|reflexivity]. Qed.
Example ex_big : 10 <= dbl_max. Proof. apply IZR_le. vm_compute. discriminate. Qed.
(** A column with 0 and 10 meets the hypotheses of the refutation, and 0 is below its average. *)
Example ex_deviates : (forall x, In x (concat [[0]; [10]]) -> 0 <= x <= dbl_max) /\ 1 < sqrt (variance (concat [[0]; [10]])) /\ 0 < average (concat [[0]; [10]]).
Proof.
  pose proof ex_big. split; [intros y [<-|[<-|[]]]; lra|]. assert (A5 : average (concat [[0]; [10]]) = 5) by (unfold average, sum; cbn; lra).
  assert (V : variance (concat [[0]; [10]]) = 5 * 5) by (unfold variance; rewrite A5; unfold sum; cbn; lra). rewrite V, sqrt_square; lra.
Qed.
(** One with 0 and 1 those of the partial theorem. *)
Example ex_calm : (forall x, In x (concat [[0]; [1]]) -> Rabs x <= dbl_max) /\ sqrt (variance (concat [[0]; [1]])) <= 1 /\ (exists a b, In a (concat [[0]; [1]]) /\ In b (concat [[0]; [1]]) /\ a <> b).
Proof.
  pose proof ex_big. split; [intros y [<-|[<-|[]]]; rewrite Rabs_pos_eq; lra|]. assert (A5 : average (concat [[0]; [1]]) = / 2) by (unfold average, sum; cbn; lra).
  assert (V : variance (concat [[0]; [1]]) = / 2 * / 2) by (unfold variance; rewrite A5; unfold sum; cbn; lra). rewrite V, sqrt_square by lra. split; [lra|]. exists 0, 1. split; [now left|]. split; [right; now left|lra].
Qed.
