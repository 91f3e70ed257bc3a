(** C83, C84: the accuracy of a network. *)
From Coq Require Import List Arith Bool ZArith Reals Lia Lra String.
From Flocq Require Import Core IEEE754.BinarySingleNaN IEEE754.Binary IEEE754.Bits.
From Verif Require Import Outcome Chars F32_Model F32_Proofs Tensor_Model Tensor_Spec Reduce_Model Reduce_Spec Reduce_Props Accuracy_Model Accuracy_Spec Accuracy_Proofs.
Import ListNotations.
Local Open Scope R_scope.

(** ** C83 *)
(** The categorical accuracy is the fraction of the tested records whose every decoded output is the decoded
    expectation, rounded once. *)
(** Partial, C83: for 1 to 2^24 records. *)
Theorem categorical_accuracy_partial : forall {G} (predict : G -> outcome (list (tensor F))) decoders records limit,
  (limit < 2 ^ 31)%Z -> tested limit records <> [] -> (Z.of_nat (List.length (tested limit records)) <= 2 ^ 24)%Z -> Forall (decodable predict decoders) (tested limit records) ->
  exists flags x, flagged (right predict decoders) (tested limit records) flags /\
    compute_categorical_accuracy predict decoders records limit = Ok x /\ is_fraction x (hits flags) (List.length (tested limit records)).
Proof.
  intros G predict decoders records limit Hl Hn Hs Hd. destruct (flags_exist (categorical_hit predict decoders) (right predict decoders) (tested limit records)) as (flags & A & B).
  { intros r Hr. apply categorical_hit_ok. rewrite Forall_forall in Hd. now apply Hd. }
  destruct (count_tested _ _ _ _ Hl Hn Hs B) as (x & C & D). exists flags, x. auto.
Qed.
(** For a text category: the texts agree exactly if the expected category is the first of those with the
    largest prediction. *)
Theorem category_right_iff : forall labels p a f k, NoDup labels -> List.length labels = cols p -> cols a = cols p -> (k < cols p)%nat ->
  (forall i, (i < cols p)%nat -> get p 0 i 0 = Ok (f i) /\ number (f i) = true) ->
  (forall i, (i < cols a)%nat -> get a 0 i 0 = Ok (of_Z (if (i =? k)%nat then 1 else 0))) ->
  (exists s, decodeBest labels p = Ok s /\ decodeBest labels a = Ok s) <->
  (forall i, (i < cols p)%nat -> order (f i) <= order (f k)) /\ (forall i, (i < k)%nat -> order (f i) < order (f k)).
Proof.
  intros labels p a f k Nd Ll Ca Hk Hp Ha.
  destruct (index_of_max_by_row p 0 0 f Hp ltac:(lia)) as (j & Ej & Lj & Mj & Fj).
  destruct (index_of_max_by_row a 0 0 (fun i => of_Z (if (i =? k)%nat then 1 else 0))) as (j' & Ej' & Lj' & Mj' & Fj').
  { intros i Hi. split; [now apply Ha|]. destruct (i =? k)%nat; reflexivity. } { lia. }
  assert (O1 : order (of_Z 1) = 1) by (destruct (val_of_Z 1 ltac:(lia)) as [A B]; change (order (of_Z 1)) with (val (of_Z 1)); exact A).
  assert (O0 : order (of_Z 0) = 0) by (destruct (val_of_Z 0 ltac:(lia)) as [A B]; change (order (of_Z 0)) with (val (of_Z 0)); exact A).
  assert (j' = k) as ->. { specialize (Mj' k ltac:(lia)). rewrite Nat.eqb_refl, O1 in Mj'. destruct (Nat.eqb_spec j' k) as [E|N]; [exact E|]. rewrite O0 in Mj'. lra. }
  unfold decodeBest. rewrite Ej, Ej'. cbn [obind].
  destruct (nth_error labels j) as [lj|] eqn:Nj; [|apply nth_error_None in Nj; lia]. destruct (nth_error labels k) as [lk|] eqn:Nk; [|apply nth_error_None in Nk; lia].
  split.
  - intros (s & E1 & E2). injection E1 as ->. injection E2 as ->. assert (j = k) as -> by (eapply NoDup_nth_error; [exact Nd|rewrite Ll; exact Lj|congruence]). auto.
  - intros [M Fst]. assert (j = k) as ->. { destruct (lt_eq_lt_dec j k) as [[L|E]|L]; [specialize (Fst j L); specialize (Mj k Hk); lra|exact E|specialize (Fj k L); specialize (M j Lj); lra]. }
    exists lk. split; congruence.
Qed.
(** But a [float] counts no further than 2^24: a network that gets one record right and one wrong is reported
    to be always right on a data set half of which it gets wrong. *)
Theorem accuracy_of_many_refuted : forall {G} (predict : G -> outcome (list (tensor F))) decoders good bad,
  decodable predict decoders good -> right predict decoders good -> decodable predict decoders bad -> ~ right predict decoders bad ->
  exists records flags x, flagged (right predict decoders) records flags /\ INR (hits flags) / INR (List.length records) = / 2 /\
    compute_categorical_accuracy predict decoders records (-1) = Ok x /\ finite x = true /\ B2R 24 128 x = 1.
Proof.
  intros G predict decoders good bad Dg Rg Db Rb. destruct (Z_of_nat_complete (2 ^ 24)) as [N HN]; [lia|]. symmetry in HN.
  exists (repeat good N ++ repeat bad N), (repeat true N ++ repeat false N).
  assert (Fl : flagged (right predict decoders) (repeat good N ++ repeat bad N) (repeat true N ++ repeat false N)).
  { apply Forall2_app; clear HN; induction N as [|N IH]; cbn [repeat]; constructor; auto; [tauto|]. split; [discriminate|contradiction]. }
  assert (Hh : hits (repeat true N ++ repeat false N) = N).
  { unfold hits. rewrite filter_app, app_length. clear. assert (A : List.length (filter (fun b : bool => b) (repeat true N)) = N) by (induction N as [|N IH]; [reflexivity|cbn [repeat filter List.length]; now rewrite IH]). assert (B : List.length (filter (fun b : bool => b) (repeat false N)) = 0%nat) by (clear A; induction N as [|N IH]; [reflexivity|cbn [repeat filter List.length]; exact IH]). rewrite A, B. lia. }
  destruct (count_many (categorical_hit predict decoders) (repeat good N ++ repeat bad N) (repeat true N ++ repeat false N)) as (x & A & B & C).
  - apply (flagged_fun _ (right predict decoders)); [|exact Fl]. intros r Hr. apply categorical_hit_ok. apply in_app_or in Hr as [H|H]; apply repeat_spec in H; now subst r.
  - rewrite Hh, HN. reflexivity.
  - exists x. split; [exact Fl|]. rewrite Hh. split; [|auto]. rewrite app_length, !repeat_length, plus_INR. assert (P : 0 < INR N) by (apply lt_0_INR; lia). field. lra.
Qed.
(** And the accuracy on no records is not a number. *)
Theorem accuracy_of_none_refuted : forall {G} (predict : G -> outcome (list (tensor F))) decoders expected_shapes limit,
  (exists x, compute_categorical_accuracy predict decoders [] limit = Ok x /\ is_nan 24 128 x = true) /\
  (exists x, compute_binary_accuracy predict expected_shapes [] limit = Ok x /\ is_nan 24 128 x = true) /\
  forall records, exists x, compute_categorical_accuracy predict decoders records 0 = Ok x /\ is_nan 24 128 x = true.
Proof.
  intros G predict decoders shapes limit. assert (N : is_nan 24 128 (fdiv (of_Z 0) (of_Z 0)) = true) by reflexivity. repeat split; try (eexists; split; [reflexivity|exact N]).
  intros [|r records]; (eexists; split; [reflexivity|exact N]).
Qed.

(** ** C84 *)
(** The binary accuracy of a network with one output is the fraction of the records for which the first
    element of the output rounds to the same integer as the first expected element; if the output has one
    element, that is everything. *)
(** Partial, C84: for one output, of which only the first element counts, and 1 to 2^24 records. *)
Theorem binary_accuracy_partial : forall {G} (predict : G -> outcome (list (tensor F))) records limit,
  (limit < 2 ^ 31)%Z -> tested limit records <> [] -> (Z.of_nat (List.length (tested limit records)) <= 2 ^ 24)%Z ->
  (forall r, In r (tested limit records) -> exists p a u v, predict (fst r) = Ok [p] /\ snd r = [a] /\ (0 < rows p /\ 0 < cols p /\ 0 < rows a /\ 0 < cols a)%nat /\
     get p 0 0 0 = Ok u /\ get a 0 0 0 = Ok v /\ finite u = true /\ finite v = true) ->
  exists flags x, flagged (fun r => exists p a u v, predict (fst r) = Ok [p] /\ snd r = [a] /\ get p 0 0 0 = Ok u /\ get a 0 0 0 = Ok v /\ nearest u = nearest v) (tested limit records) flags /\
    compute_binary_accuracy predict 1 records limit = Ok x /\ is_fraction x (hits flags) (List.length (tested limit records)).
Proof.
  intros G predict records limit Hl Hn Hs Hr. match goal with |- exists flags x, flagged ?Q _ _ /\ _ => destruct (flags_exist (binary_hit predict 1) Q (tested limit records)) as (flags & A & B) end.
  - intros r Hi. destruct (Hr r Hi) as (p & a & u & v & Ep & Ea & (Rp & Cp & Ra & Ca) & Eu & Ev & Fu & Fv).
    assert (Fp : flat p 0 = Ok u). { unfold flat. destruct (Nat.eqb_spec (cols p * rows p) 0) as [Z|Z]; [nia|]. rewrite Nat.mod_0_l, !Nat.div_0_l, Nat.mod_0_l by lia. exact Eu. }
    assert (Fa : flat a 0 = Ok v). { unfold flat. destruct (Nat.eqb_spec (cols a * rows a) 0) as [Z|Z]; [nia|]. rewrite Nat.mod_0_l, !Nat.div_0_l, Nat.mod_0_l by lia. exact Ev. }
    exists (roughlyEqual (std_round u) (std_round v)). split.
    + unfold binary_hit. rewrite Ep, Ea. cbn [obind loop vec_at nth_error List.length same_values]. rewrite Fp. cbn [obind]. rewrite Fa. cbn [obind]. destruct (roughlyEqual _ _); reflexivity.
    + rewrite rough_rounded by assumption. split.
      * intros E. exists p, a, u, v. auto.
      * intros (p' & a' & u' & v' & Ep' & Ea' & Eu' & Ev' & E). rewrite Ep in Ep'. injection Ep' as <-. rewrite Ea in Ea'. injection Ea' as <-. rewrite Eu in Eu'. injection Eu' as <-. rewrite Ev in Ev'. injection Ev' as <-. exact E.
  - destruct (count_tested _ _ _ _ Hl Hn Hs B) as (x & C & D). exists flags, x. auto.
Qed.
(** With [n] outputs of one row and at least [n] columns each, the first [n] elements of every output count. *)
(** Partial, C84: the elements after the first [n], and outputs of fewer elements. *)
Theorem binary_accuracy_outputs_partial : forall {G} (predict : G -> outcome (list (tensor F))) n records limit,
  (limit < 2 ^ 31)%Z -> tested limit records <> [] -> (Z.of_nat (List.length (tested limit records)) <= 2 ^ 24)%Z ->
  (forall r, In r (tested limit records) -> exists ps u v, predict (fst r) = Ok ps /\ List.length ps = n /\
     forall i, (i < n)%nat -> exists p a, nth_error ps i = Some p /\ nth_error (snd r) i = Some a /\ row_of n p (u i) /\ row_of n a (v i)) ->
  exists flags x, flagged (fun r => exists ps, predict (fst r) = Ok ps /\ forall i j p a y z, (j < n)%nat -> nth_error ps i = Some p -> nth_error (snd r) i = Some a ->
      get p 0 j 0 = Ok y -> get a 0 j 0 = Ok z -> nearest y = nearest z) (tested limit records) flags /\
    compute_binary_accuracy predict n records limit = Ok x /\ is_fraction x (hits flags) (List.length (tested limit records)).
Proof.
  intros G predict n records limit Hl Hn Hs Hr. match goal with |- exists flags x, flagged ?Q _ _ /\ _ => destruct (flags_exist (binary_hit predict n) Q (tested limit records)) as (flags & A & B) end.
  - intros r Hi. destruct (Hr r Hi) as (ps & u & v & Ep & El & H). destruct (binary_hit_rows predict n r ps u v Ep El H) as (b & E & B). exists b. split; [exact E|]. rewrite B. split.
    + intros X. exists ps. split; [exact Ep|]. intros i j p a y z Hj E1 E2 E3 E4. assert (Hin : (i < n)%nat) by (rewrite <- El; apply nth_error_Some; congruence).
      destruct (H i Hin) as (p' & a' & F1 & F2 & (_ & _ & R1) & (_ & _ & R2)). rewrite E1 in F1. injection F1 as <-. rewrite E2 in F2. injection F2 as <-.
      destruct (R1 j Hj) as [V1 _], (R2 j Hj) as [V2 _]. rewrite E3 in V1. rewrite E4 in V2. injection V1 as ->. injection V2 as ->. now apply X.
    + intros (ps' & Ep' & X) i j Hin Hj. rewrite Ep in Ep'. injection Ep' as <-. destruct (H i Hin) as (p & a & F1 & F2 & (_ & _ & R1) & (_ & _ & R2)).
      destruct (R1 j Hj) as [V1 _], (R2 j Hj) as [V2 _]. now apply (X i j p a).
  - destruct (count_tested _ _ _ _ Hl Hn Hs B) as (x & C & D). exists flags, x. auto.
Qed.
(** So a network with several elements in its output is reported to be always right if it gets the first
    right, whatever the others are. *)
Theorem binary_accuracy_refuted : forall w v, (forall j, (0 < j)%nat -> w j <> v j) -> w 0%nat = v 0%nat -> forall n m, (1 < m)%nat -> (0 < n)%nat -> (Z.of_nat n <= 2 ^ 24)%Z ->
  let p := {| rows := 1; cols := m; chans := 1; get := fun _ j _ => Ok (of_Z (w j)) |} in
  let a := {| rows := 1; cols := m; chans := 1; get := fun _ j _ => Ok (of_Z (v j)) |} in
  (Z.abs (w 0%nat) <= 2 ^ 24)%Z ->
  exists x, compute_binary_accuracy (fun _ : unit => Ok [p]) 1 (repeat (tt, [a]) n) (-1) = Ok x /\ finite x = true /\ B2R 24 128 x = 1.
Proof.
  intros w v _ E0 n m Hm Hn Hl p a Hw. destruct (binary_accuracy_partial (fun _ : unit => Ok [p]) (repeat (tt, [a]) n) (-1)) as (flags & x & Fl & E & Fr).
  - reflexivity.
  - change (tested (-1) (repeat (tt, [a]) n)) with (repeat (tt, [a]) n). destruct n; [lia|discriminate].
  - change (tested (-1) (repeat (tt, [a]) n)) with (repeat (tt, [a]) n). now rewrite repeat_length.
  - change (tested (-1) (repeat (tt, [a]) n)) with (repeat (tt, [a]) n). intros r Hr. apply repeat_spec in Hr. subst r. exists p, a, (of_Z (w 0%nat)), (of_Z (v 0%nat)). cbn [fst snd rows cols p a get]. repeat split; try lia; [now apply val_of_Z|rewrite <- E0; now apply val_of_Z].
  - exists x. split; [exact E|]. change (tested (-1) (repeat (tt, [a]) n)) with (repeat (tt, [a]) n) in *. rewrite repeat_length in Fr.
    assert (Hh : hits flags = n).
    { clear - Fl E0. revert flags Fl. induction n as [|n IH]; intros flags Fl; inversion Fl as [|r b l fl Q Fl' E1 E2]; subst; [reflexivity|]. unfold hits in *. cbn [filter]. assert (b = true) as ->.
      - apply Q. exists p, a, (of_Z (w 0%nat)), (of_Z (v 0%nat)). repeat split. now rewrite E0.
      - cbn [List.length]. f_equal. now apply IH. }
    rewrite Hh in Fr. destruct Fr as [Ff V]. split; [exact Ff|]. rewrite V. unfold Rdiv. rewrite Rinv_r by (apply not_0_INR; lia). apply rnd_id, F32_1.
Qed.
(** And with two outputs of one element each, the second element of the first output is asked for: if the first
    elements agree, the call throws. *)
Theorem binary_accuracy_two_outputs_refuted : forall {G} (predict : G -> outcome (list (tensor F))) given p q a b u v records,
  predict given = Ok [p; q] -> full {| zero := of_Z 0; one := of_Z 1; add := fadd; sub := fsub; mul := fmul; div := fdiv; eqb := feq; gtb := fgt |} [[[u]]] = Ok p ->
  get a 0 0 0 = Ok v -> rows a = 1%nat -> cols a = 1%nat -> finite u = true -> finite v = true -> nearest u = nearest v ->
  compute_binary_accuracy predict 2 ((given, [a; b]) :: records) (-1) = Throw.
Proof.
  intros G predict given p q a b u v records Ep Eq Ev Ra Ca Fu Fv E. injection Eq as <-. unfold compute_binary_accuracy. cbn [count]. change (-1 <? 0)%Z with true. cbn [orb]. unfold binary_hit. cbn [fst snd]. rewrite Ep. cbn [obind loop vec_at nth_error List.length same_values].
  assert (Fa : flat a 0 = Ok v) by (unfold flat; rewrite Ra, Ca; exact Ev). unfold flat at 1. cbn [rows cols get Nat.mul Nat.add Nat.eqb].
  change (0 mod 1)%nat with 0%nat. change (0 / 1)%nat with 0%nat. cbn [Nat.ltb Nat.leb andb nth obind List.length]. rewrite Fa. cbn [obind].
  apply rough_rounded in E; [|exact Fu|exact Fv]. change (0 mod 1)%nat with 0%nat. cbn [Nat.leb andb obind]. rewrite E. reflexivity.
Qed.

(** ** Examples *)
Definition row (l : list Z) : tensor F := {| rows := 1; cols := List.length l; chans := 1; get := fun _ j _ => Ok (of_Z (nth j l 0%Z)) |}.
Definition animals : list str := [lit "cat"; lit "dog"; lit "eel"].
(** The network repeats what is given. *)
Definition echo (l : list Z) : outcome (list (tensor F)) := Ok [row l].
Definition tests : list (list Z * list (tensor F)) := [([5; 2; 1], [row [1; 0; 0]]); ([3; 4; 1], [row [0; 1; 0]]); ([7; 1; 7], [row [0; 0; 1]]); ([0; 0; 9], [row [0; 0; 1]])]%Z.
(** Three of four: the third has two largest elements, and the first of them is taken. *)
Example accuracy_ex : omap to_bits (compute_categorical_accuracy echo [decodeBest animals] tests (-1)) = Ok (to_bits (fdiv (of_Z 3) (of_Z 4))).
Proof. reflexivity. Qed.
Example accuracy_ex_limit : omap to_bits (compute_categorical_accuracy echo [decodeBest animals] tests 2) = Ok (to_bits (of_Z 1)).
Proof. reflexivity. Qed.
Example accuracy_ex_hyp : tested 3 tests <> [] /\ Forall (decodable echo [decodeBest animals]) (tested 3 tests).
Proof.
  split; [discriminate|]. repeat constructor; (eexists; split; [reflexivity|]; intros i d H; destruct i as [|[|i]]; [|discriminate|discriminate]; injection H as <-; do 4 eexists; repeat split; reflexivity).
Qed.
Example many_ex_hyp : decodable echo [decodeBest animals] ([5; 2; 1]%Z, [row [1; 0; 0]%Z]) /\ right echo [decodeBest animals] ([5; 2; 1]%Z, [row [1; 0; 0]%Z]) /\
  decodable echo [decodeBest animals] ([7; 1; 7]%Z, [row [0; 0; 1]%Z]) /\ ~ right echo [decodeBest animals] ([7; 1; 7]%Z, [row [0; 0; 1]%Z]).
Proof.
  split; [|split; [|split]].
  1, 2, 3: (eexists; split; [reflexivity|]; intros i d H; destruct i as [|[|i]]; [|discriminate|discriminate]; injection H as <-; first [do 4 eexists; repeat split; reflexivity|do 3 eexists; repeat split; reflexivity]).
  intros (q & E & X). injection E as <-. destruct (X 0%nat _ eq_refl) as (p & a & s & Ep & Ea & E1 & E2). injection Ep as <-. injection Ea as <-. vm_compute in E1, E2. congruence.
Qed.
Example binary_ex : omap to_bits (compute_binary_accuracy echo 1 [([1]%Z, [row [1]%Z]); ([0]%Z, [row [1]%Z])] (-1)) = Ok (to_bits (fdiv (of_Z 1) (of_Z 2))).
Proof. reflexivity. Qed.
Example binary_ex_wrong : omap to_bits (compute_binary_accuracy echo 1 [([1; 0; 1]%Z, [row [1; 1; 0]%Z])] (-1)) = Ok (to_bits (of_Z 1)).
Proof. reflexivity. Qed.
Example two_outputs_ex : omap to_bits (compute_binary_accuracy (fun l => Ok [row l; row l]) 2 [([1; 0]%Z, [row [1; 1]%Z; row [1; 0]%Z]); ([0; 2]%Z, [row [0; 2]%Z; row [0; 2]%Z])] (-1)) = Ok (to_bits (fdiv (of_Z 1) (of_Z 2))).
Proof. reflexivity. Qed.
Example two_outputs_ex_hyp : row_of 2 (row [1; 0]%Z) (fun j => of_Z (nth j [1; 0]%Z 0%Z)).
Proof. repeat split. - cbn. lia. - destruct j as [|[|j]]; [reflexivity..|lia]. Qed.

Print Assumptions categorical_accuracy_partial.
Print Assumptions category_right_iff.
Print Assumptions accuracy_of_many_refuted.
Print Assumptions accuracy_of_none_refuted.
Print Assumptions binary_accuracy_partial.
Print Assumptions binary_accuracy_refuted.
Print Assumptions binary_accuracy_two_outputs_refuted.
Print Assumptions binary_accuracy_outputs_partial.
