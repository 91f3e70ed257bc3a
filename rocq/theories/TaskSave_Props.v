(** C103 for tasks: the network made for a task predicts the same after it was saved and loaded. *)
From Coq Require Import String List Arith Bool NArith ZArith QArith Reals Lia.
From Verif Require Import Outcome Chars NumText_Model Tensor_Model Tensor_Spec Graph_Model Graph_Spec Net_Model Net_Spec ModelFile_Model ModelFile_Spec ModelFile_Proofs ModelFile_Order ModelFile_Text ModelFile_Props TaskNet_Model TaskNet_Spec TaskNet_Proofs TaskNet_Shapes TaskNet_Front TaskNet_Whole Knowledge_Model Knowledge_Props.
Import ListNotations.
Local Open Scope nat_scope.

(** ** The order of the layers *)
Lemma fork_depth_first : forall cs ps q n, parents_of cs = ps ++ repeat [q] n -> length ps = q -> (forall i, i < length ps -> nth i ps [] = [] \/ nth_error (nth i ps []) (length (nth i ps []) - 1) = Some i) -> depth_first cs.
Proof.
  intros cs ps q n E L H p v Lp w Hw. unfold last_parent, parents in Lp. destruct v as [|i]; [destruct p; discriminate Lp|]. rewrite E in Lp. destruct (Nat.lt_ge_cases i (length ps)) as [Hi|Hi].
  - rewrite app_nth1 in Lp by exact Hi. destruct (H i Hi) as [Z|Z]; [rewrite Z in Lp; discriminate|]. rewrite Z in Lp. injection Lp as <-. lia.
  - rewrite app_nth2 in Lp by exact Hi. destruct (Nat.lt_ge_cases (i - length ps) n) as [Hn|Hn]; [|rewrite nth_overflow in Lp by (rewrite repeat_length; exact Hn); discriminate].
    rewrite (nth_indep _ [] [q]) in Lp by (rewrite repeat_length; exact Hn). rewrite nth_repeat in Lp. cbn in Lp. injection Lp as <-. apply descends_step with (p := q); [constructor|]. unfold last_parent, parents. destruct w as [|j]; [lia|]. rewrite E, app_nth2 by lia.
    rewrite (nth_indep _ [] [q]) by (rewrite repeat_length; lia). rewrite nth_repeat. reflexivity.
Qed.
Lemma input_alone : forall cs u w, parents cs w = [] -> descends cs u w -> u = w.
Proof. intros cs u w E H. destruct H as [|p w H L]; [reflexivity|]. unfold last_parent in L. rewrite E in L. discriminate. Qed.

Section Program.
Context (given : list column) (expected : list shape) (g : goal) (complexity : Q).
Notation cce := (categorical expected g).
Lemma outputs_join : forall l p i id ps, ~ In (Add_concatenated ps) (outputs_from expected g p i id l).
Proof. induction l as [|s l IH]; intros p i id ps; [intros []|]. cbn [outputs_from app]. intros [E|[E|I]]; [discriminate|discriminate|exact (IH _ _ _ _ I)]. Qed.
Lemma settings_join : forall id ps, ~ In (Add_concatenated ps) (settings expected g id).
Proof. intros id ps H. unfold settings in H. destruct cce, (is_memory g); cbn in H; intuition discriminate. Qed.
Lemma rest_join : forall b o1 conv ps, ~ In (Add_concatenated ps) (rest given expected g complexity b o1 conv).
Proof.
  intros b o1 conv ps H. unfold rest in H. cbv zeta in H. rewrite !in_app_iff in H. destruct H as [H|[H|[H|[H|H]]]].
  - exact (settings_join _ _ H).
  - cbn in H. intuition discriminate.
  - exact (settings_join _ _ H).
  - cbn in H. intuition discriminate.
  - destruct cce; [destruct H as [H|H]; [discriminate|]|]; exact (outputs_join _ _ _ _ _ H).
Qed.
Lemma hidden_chain : forall b, exists ps q n, hidden_parents expected g b = ps ++ repeat [q] n /\ q = b + length ps /\ forall i, i < length ps -> nth i ps [] = [b + i].
Proof.
  intros b. unfold hidden_parents. destruct cce.
  - exists [[b]; [S b]; [2 + b]; [3 + b]], (4 + b), (length expected). split; [reflexivity|]. split; [cbn; lia|]. intros i Hi. cbn in Hi. destruct i as [|[|[|[|]]]]; try lia; cbn [nth]; f_equal; lia.
  - exists [[b]; [S b]; [2 + b]], (3 + b), (length expected). split; [reflexivity|]. split; [cbn; lia|]. intros i Hi. cbn in Hi. destruct i as [|[|[|]]]; try lia; cbn [nth]; f_equal; lia.
Qed.
Lemma program_order : forall prog, task_program given expected g complexity = Ok prog -> depth_first prog /\ joins_in_order prog /\ Forall has_filters prog /\ length (parents_of prog) <= length given + 6 + length expected.
Proof.
  intros prog E. unfold task_program in E. destruct (first_layer given expected complexity) as [[[[cs b] o1] conv]| |] eqn:Ef; try discriminate. cbn [obind] in E. injection E as <-.
  assert (HF : Forall has_filters (rest given expected g complexity b o1 conv)).
  { assert (Ho : forall l p i id, Forall has_filters (outputs_from expected g p i id l)) by (induction l as [|s l IH]; intros; cbn [outputs_from app]; [constructor|]; repeat (apply Forall_cons; [exact I|]); apply IH).
    assert (Hs : forall id, Forall has_filters (settings expected g id)) by (intros id; unfold settings; destruct cce, (is_memory g); repeat (apply Forall_cons; [exact I|]); constructor).
    unfold rest. cbv zeta. apply Forall_app. split; [apply Hs|]. apply Forall_app. split; [repeat (apply Forall_cons; [exact I|]); constructor|]. apply Forall_app. split; [apply Hs|].
    apply Forall_app. split; [repeat (apply Forall_cons; [exact I|]); constructor|]. destruct cce; [apply Forall_cons; [exact I|]|]; apply Ho. }
  destruct (hidden_chain b) as (hp & q & n & Eh & Eq & Hc).
  assert (Ln : length (hidden_parents expected g b) <= 4 + length expected). { unfold hidden_parents. destruct cce; cbn [length app]; rewrite repeat_length; lia. }
  assert (Eps : parents_of (cs ++ rest given expected g complexity b o1 conv) = parents_of cs ++ hp ++ repeat [q] n) by (rewrite parents_of_app, rest_parents, Eh; reflexivity).
  assert (Front : length (parents_of cs) = b /\ b <= length given + 2 /\ Forall has_filters cs /\ (forall i, i < b -> nth i (parents_of cs) [] = [] \/ nth_error (nth i (parents_of cs) []) (length (nth i (parents_of cs) []) - 1) = Some i) /\
    forall ps, In (Add_concatenated ps) cs -> ps = seq 1 (length given) /\ length given <= b /\ forall i, i < length given -> nth i (parents_of cs) [] = []).
  { unfold first_layer in Ef. destruct given as [|c [|c' m]] eqn:Eg; [discriminate| |].
    - destruct (picture c); injection Ef as <- <- <- <-; cbn [parents_of app length]; (split; [reflexivity|]); (split; [lia|]); (split; [repeat constructor; auto|]); (split; [intros i Hi; left; destruct i; [reflexivity|lia]|]); intros ps I; cbn in I; intuition discriminate.
    - rewrite <- Eg in *. remember (length given) as k. assert (K : k = S (S (length m))) by (rewrite Heqk, Eg; reflexivity). injection Ef as <- <- <- <-. rewrite parents_of_app.
      assert (Pi : forall l, parents_of (map (fun c => Add_input flatten (size c) (1, values_of (size c), 1)%N false linear) l) = repeat [] (length l)) by (induction l as [|x l IH]; [reflexivity|cbn [map parents_of length repeat]; now rewrite IH]).
      rewrite Pi, <- Heqk. cbn [parents_of]. split; [rewrite app_length, repeat_length; cbn; lia|]. split; [lia|]. split; [|split].
      + apply Forall_app. split; [apply Forall_forall; intros x Hx; apply in_map_iff in Hx as (y & <- & _); exact I|repeat (apply Forall_cons; [exact I|]); constructor].
      + intros i Hi. destruct (Nat.lt_ge_cases i k) as [L|L]; [left; rewrite app_nth1 by (rewrite repeat_length; exact L); apply nth_repeat|]. right. rewrite app_nth2, repeat_length by (rewrite repeat_length; exact L).
        assert (i = k \/ i = S k) as [->| ->] by lia.
        * rewrite Nat.sub_diag. cbn [nth]. rewrite seq_length. rewrite nth_error_nth' with (d := 0) by (rewrite seq_length; lia). rewrite seq_nth by lia. f_equal. lia.
        * replace (S k - k) with 1 by lia. reflexivity.
      + intros ps I. apply in_app_or in I as [I|I]; [apply in_map_iff in I as (y & Y & _); discriminate|]. destruct I as [I|[I|[]]]; [|discriminate]. injection I as <-. split; [reflexivity|]. split; [lia|]. intros i Hi. rewrite app_nth1 by (rewrite repeat_length; exact Hi). apply nth_repeat. }
  destruct Front as (F1 & F2 & F3 & F4 & F5). split; [|split; [|split]].
  - apply (fork_depth_first _ (parents_of cs ++ hp) q n); [rewrite <- app_assoc; exact Eps|rewrite app_length; lia|]. intros i Hi. rewrite app_length in Hi. destruct (Nat.lt_ge_cases i b) as [L|L].
    + rewrite app_nth1 by lia. now apply F4.
    + rewrite app_nth2 by lia. right. rewrite F1, Hc by lia. cbn. f_equal. lia.
  - intros ps I. apply in_app_or in I as [I|I]; [|contradict I; apply rest_join]. destruct (F5 ps I) as (-> & Lb & Z). split.
    + intros i j a c Hij Ha Hc'. assert (i < length given) by (rewrite <- (seq_length (length given) 1); apply nth_error_Some; congruence). assert (j < length given) by (rewrite <- (seq_length (length given) 1); apply nth_error_Some; congruence).
      rewrite nth_error_nth' with (d := 0) in Ha, Hc' by (rewrite seq_length; assumption). rewrite seq_nth in Ha, Hc' by assumption. injection Ha as <-. injection Hc' as <-. lia.
    + intros i u w Hi Hu Hl X. rewrite seq_length in *. rewrite nth_error_nth' with (d := 0) in Hu, Hl by (rewrite seq_length; lia). rewrite seq_nth in Hu, Hl by lia. injection Hu as <-. injection Hl as <-.
      apply input_alone in X; [lia|]. unfold parents. replace (1 + (length given - 1)) with (S (length given - 1)) by lia. rewrite Eps. rewrite app_nth1; [apply Z; lia|]. rewrite F1. lia.
  - apply Forall_app. auto.
  - rewrite Eps, app_length, <- Eh. lia.
Qed.
End Program.

(** ** The numbers *)
(** The numbers of a task fit into [size_t], and there are few enough columns for the ids of the layers. *)
Definition machine_sizes (given : list column) (expected : list shape) (complexity : Q) : Prop :=
  (Forall (fun c => size64 (size c)) given /\ Forall size64 expected /\ total_values (map size given) < 2 ^ 64 /\ total_values expected < 2 ^ 64 /\ size_expected expected complexity < 2 ^ 64 /\
   N.of_nat (length given + length expected) < 2 ^ 31)%N.
Lemma values_total : forall given c, In c given -> (values_of (size c) <= total_values (map size given))%N.
Proof. induction given as [|x given IH]; intros c I; [destruct I|]. cbn [map total_values fold_right] in *. fold (total_values (map size given)). destruct I as [->|I]; [lia|]. specialize (IH c I). lia. Qed.
Lemma row64 : forall n, (n < 2 ^ 64)%N -> size64 (1, n, 1)%N.
Proof. intros n H. unfold size64. repeat split; auto. Qed.
Lemma program_machine : forall given expected g complexity prog, machine_sizes given expected complexity -> task_program given expected g complexity = Ok prog -> Forall machine_values prog.
Proof.
  intros given expected g complexity prog (Mg & Me & Tg & Te & Se & Ln) E.
  assert (S1 : (size1 given expected complexity < 2 ^ 64)%N) by (unfold size1, size_given_expected; eapply N.le_lt_trans; [apply N.le_min_l|exact Tg]).
  unfold task_program in E. destruct (first_layer given expected complexity) as [[[[cs b] o1] conv]| |] eqn:Ef; try discriminate. cbn [obind] in E. injection E as <-.
  assert (Hs : forall id, Forall machine_values (settings expected g id)) by (intros id; unfold settings; destruct (categorical expected g), (is_memory g); cbn [app]; repeat (apply Forall_cons; [first [exact I|reflexivity]|]); constructor).
  assert (Ho : forall l p i id, size64 i -> Forall size64 l -> Forall machine_values (outputs_from expected g p i id l)).
  { induction l as [|x l IH]; intros p i id Hi Hl; [constructor|]. cbn [outputs_from app]. inversion Hl as [|? ? Hx Hl']; subst. apply Forall_cons; [split; assumption|]. apply Forall_cons; [exact I|]. now apply IH. }
  assert (Front : size64 o1 /\ Forall machine_values cs).
  { unfold first_layer in Ef. destruct given as [|c [|c' m]] eqn:Eg; [discriminate| |].
    - assert (Sc : size64 (size c)) by (inversion Mg; assumption). destruct (picture c); injection Ef as <- <- <- <-.
      + split; [destruct (size c) as [[h w] k]; split; [apply window_small|split; [apply window_small|reflexivity]]|]. apply Forall_cons; [split; [exact Sc|split; reflexivity]|]. apply Forall_cons; [exact I|constructor].
      + split; [now apply row64|]. apply Forall_cons; [split; [exact Sc|now apply row64]|]. apply Forall_cons; [exact I|constructor].
    - rewrite <- Eg in *. assert (L : (N.of_nat (length given) < 2 ^ 64)%N) by (eapply N.le_lt_trans; [|eapply N.lt_trans; [exact Ln|reflexivity]]; lia).
      injection Ef as <- <- <- <-. split; [now apply row64|]. apply Forall_app. split.
      + apply Forall_forall. intros x Hx. apply in_map_iff in Hx as (y & <- & Hy). split; [rewrite Forall_forall in Mg; now apply Mg|]. apply row64. exact (N.le_lt_trans _ _ _ (values_total given y Hy) Tg).
      + apply Forall_cons; [cbn [machine_values]; rewrite seq_length; exact L|]. apply Forall_cons; [split; now apply row64|constructor]. }
  destruct Front as [So Fc]. apply Forall_app. split; [exact Fc|]. unfold rest. cbv zeta.
  assert (H2 : size64 (1, hidden_size given expected complexity conv, 1)%N) by (apply row64; unfold hidden_size; destruct conv; assumption).
  apply Forall_app. split; [apply Hs|]. apply Forall_app. split; [repeat (apply Forall_cons; [first [exact I|split; assumption]|]); constructor|]. apply Forall_app. split; [apply Hs|].
  apply Forall_app. split; [apply Forall_cons; [split; assumption|constructor]|]. destruct (categorical expected g); [apply Forall_cons; [split; [assumption|now apply row64]|]|]; apply Ho; auto. now apply row64.
Qed.

(** ** Saving and loading *)
(** The network of a task, saved at any time and loaded from its files by another run of the program, is described as before
    and predicts what it predicted, whatever its parameters are. *)
(** Partial, C103: given and expected columns as in C101; rates are floats that fifteen decimals describe. *)
Theorem task_network_reloads_partial : forall given expected g complexity, usable given -> Forall (fun s => exists e, s = (1, e, 1)%N) expected -> expected <> [] -> machine_sizes given expected complexity ->
  exists prog, task_program given expected g complexity = Ok prog /\ forall o r rb l, fits15 r -> fits15 rb -> exists d net, run prog (new_dsl o r rb l) = Ok d /\ build d = Ok net /\
  exists fuel0, forall fuel actions ps ps0 (s : str -> option (tensor R)) in_range, fuel0 <= fuel -> all_fit d ps ->
  exists s' d' net' ps', save_network d net fuel (history (network d net) fuel actions Graph_Model.built) ps s = Ok s' /\
    load_config (config_file in_range net) = Ok d' /\ build d' = Ok net' /\ load_network d' net' fuel Graph_Model.built s' ps0 = Ok ps' /\
    forall random training xs st, predict (network d' net') (forward_at d' ps' random training) fuel xs st = predict (network d net) (forward_at d ps random training) fuel xs st.
Proof.
  intros given expected g complexity U He Nx M. destruct (task_net given expected g complexity U He Nx) as (prog & Ep & J & H). exists prog. split; [exact Ep|]. intros o r rb l Fr Frb.
  destruct (H o r rb l) as (d & net & f & Rn & Bd & _ & OE & EO & _). exists d, net. split; [exact Rn|]. split; [exact Bd|].
  destruct (program_order given expected g complexity prog Ep) as (DF & JO & HF & Ln).
  assert (MP : machine_program prog r rb). { split; [eapply program_machine; eassumption|]. split; [exact Fr|]. split; [exact Frb|]. destruct M as (_ & _ & _ & _ & _ & M). clear - M Ln. change (2 ^ 31)%N with 2147483648%N in M. change (2 ^ 32)%N with 4294967296%N. lia. }
  exact (saved_network_predicts_the_same_partial prog o r rb l d net J MP HF DF JO Rn Bd OE EO).
Qed.
Print Assumptions task_network_reloads_partial.

(** ** Examples *)
(** Labels and numbers from a small grey picture and two numbers. *)
Example ex_sizes : let given := [{| picture := true; size := (28, 28, 1)%N |}; {| picture := false; size := (1, 1, 1)%N |}; {| picture := false; size := (1, 1, 1)%N |}] in
  usable given /\ Forall (fun s => exists e, s = (1, e, 1)%N) [(1, 3, 1)%N; (1, 1, 1)%N] /\ machine_sizes given [(1, 3, 1)%N; (1, 1, 1)%N] 10 /\ fits15 0.
Proof.
  split; [split; [repeat (apply Forall_cons; [cbn; lia|]); apply Forall_nil|reflexivity]|]. split; [repeat constructor; eauto|]. split; [|apply fits_default].
  split; [repeat (apply Forall_cons; [repeat split|]); apply Forall_nil|]. split; [repeat (apply Forall_cons; [repeat split|]); apply Forall_nil|]. repeat split.
Qed.
