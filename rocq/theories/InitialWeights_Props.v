(** Properties of the weights that a network starts from. *)
From Coq Require Import Reals ZArith NArith List Bool Lia Lra.
From Flocq Require Import Core.
From Verif Require Import InitialWeights_Model InitialWeights_Proofs.
Import ListNotations.
Local Open Scope R_scope.

(** * C88: the size of initial weights *)

(** Every initial weight is a number and lies between plus and minus [v], a float whose square is at most 26 hundredths of the
    2 / (inputs + outputs) that the Xavier scheme asks for as the variance; in [float] and [double] arithmetic, for every shape,
    seed and position. *)
Theorem initial_weights_bounded : forall rows cols channels seed, (1 <= rows + cols < 2 ^ 64)%N ->
  exists v, v * v <= 2 / real (rows + cols) * (26 / 100) /\ forall row column channel,
  exists w, getValue float_round double_round (TensorFromXavier float_round double_round rows cols channels seed) row column channel = Some w /\
    - v <= w <= v.
Proof.
  intros rows cols channels seed H. exists (variance float_round rows cols). split; [apply (variance_facts rows cols H)|].
  intros. now apply xavier_lemma.
Qed.
Print Assumptions initial_weights_bounded.

(** So no weights whatever have the variance of the Xavier scheme: the mean of the squares is at most 26 hundredths of it. *)
Theorem xavier_variance_refuted : forall rows cols channels seed (positions : list (N * N * N)), (1 <= rows + cols < 2 ^ 64)%N -> positions <> [] ->
  exists ws, map (fun p => getValue float_round double_round (TensorFromXavier float_round double_round rows cols channels seed) (fst (fst p)) (snd (fst p)) (snd p)) positions = map Some ws /\
    fold_right (fun w s => w * w + s) 0 ws / INR (length ws) <= 2 / real (rows + cols) * (26 / 100).
Proof.
  intros rows cols channels seed ps H Hne. destruct (initial_weights_bounded rows cols channels seed H) as (v & Hv & Hw).
  set (B := 2 / real (rows + cols) * (26 / 100)) in *. clearbody B.
  assert (G : forall qs, exists ws, map (fun p => getValue float_round double_round (TensorFromXavier float_round double_round rows cols channels seed) (fst (fst p)) (snd (fst p)) (snd p)) qs = map Some ws /\
    length ws = length qs /\ fold_right (fun w s => w * w + s) 0 ws <= B * INR (length ws)).
  { intros qs. induction qs as [|q qs IH].
    - exists []. split; [reflexivity|]. split; [reflexivity|]. cbn. lra.
    - destruct IH as (ws & E & L & S0). destruct (Hw (fst (fst q)) (snd (fst q)) (snd q)) as (w & Ew & Bw).
      exists (w :: ws). cbn [map]. rewrite Ew, E. split; [reflexivity|]. split; [cbn; now rewrite L|].
      cbn [fold_right]. change (length (w :: ws)) with (S (length ws)). rewrite S_INR. assert (w * w <= v * v) by nra. nra. }
  destruct (G ps) as (ws & E & L & S0). exists ws. split; [exact E|].
  assert (P : 0 < INR (length ws)). { apply lt_0_INR. rewrite L. destruct ps; [congruence|cbn; lia]. }
  apply Rmult_le_reg_r with (INR (length ws)); [exact P|]. unfold Rdiv. rewrite Rmult_assoc, Rinv_l by lra. lra.
Qed.
Print Assumptions xavier_variance_refuted.

(** The values of a random tensor lie between its bounds, if their difference is a [float]. *)
Theorem random_tensor_bounded_partial : forall rows cols channels lo hi seed row column channel,
  generic_format radix2 (FLT_exp (-149) 24) lo -> generic_format radix2 (FLT_exp (-149) 24) hi -> lo < hi ->
  generic_format radix2 (FLT_exp (-149) 24) (hi - lo) ->
  exists w, getValue float_round double_round (TensorFromRandom float_round double_round rows cols channels lo hi seed) row column channel = Some w /\ lo <= w <= hi.
Proof. exact random_lemma. Qed.
Print Assumptions random_tensor_bounded_partial.

(** With equal bounds every value is NaN. *)
Theorem random_tensor_of_one_value_refuted : forall rows cols channels x seed row column channel,
  getValue float_round double_round (TensorFromRandom float_round double_round rows cols channels x x seed) row column channel = None.
Proof. exact equal_bounds_lemma. Qed.
Print Assumptions random_tensor_of_one_value_refuted.

(** The bounds 0 and 1 of a dropout layer. *)
Example dropout_bounds : generic_format radix2 (FLT_exp (-149) 24) 0 /\ generic_format radix2 (FLT_exp (-149) 24) 1 /\
  generic_format radix2 (FLT_exp (-149) 24) (1 - 0).
Proof.
  assert (F : generic_format radix2 (FLT_exp (-149) 24) 1) by (change 1 with (bpow radix2 0); apply generic_format_bpow; unfold FLT_exp; lia).
  split; [apply generic_format_0|]. split; [exact F|]. now rewrite Rminus_0_r.
Qed.

(** * C89: layers and neurons start from different weights *)

(** In exact arithmetic, two neurons of a layer differ in the weight of every input. *)
Theorem neurons_differ_partial : forall rows cols channels seed row column column' channel, (1 <= rows + cols)%N ->
  (column < 135914000000000000000)%N -> (column' < 135914000000000000000)%N -> column <> column' ->
  let t := TensorFromXavier (fun x => x) (fun x => x) rows cols channels seed in
  getValue (fun x => x) (fun x => x) t row column channel <> getValue (fun x => x) (fun x => x) t row column' channel.
Proof. exact columns_lemma. Qed.
Print Assumptions neurons_differ_partial.

(** In exact arithmetic and with an optimizer other than sgd, two fully connected layers of the same shape among the first
    30000 differ in every weight. *)
Theorem layers_differ_partial : forall ls i j inputs outputs b b', (i < j)%nat -> (N.of_nat j <= 30000)%N -> (1 <= inputs + outputs)%N ->
  nth_error ls i = Some (Full inputs outputs b) -> nth_error ls j = Some (Full inputs outputs b') ->
  exists t u, nth_error (network_weights (fun x => x) (fun x => x) WithMomentum 0 ls) i = Some [t] /\
    nth_error (network_weights (fun x => x) (fun x => x) WithMomentum 0 ls) j = Some [u] /\
    forall row column channel, getValue (fun x => x) (fun x => x) t row column channel <> getValue (fun x => x) (fun x => x) u row column channel.
Proof.
  intros ls i j inputs outputs b b' Hij Hj30 Hn Hi Hj.
  destruct (ids_apart (fun x => x) (fun x => x) ls 0 i j _ _ ltac:(lia) Hi Hj) as (id & id' & E & E' & B1 & B2 & B3).
  exists (TensorFromXavier (fun x => x) (fun x => x) inputs outputs 1 (seed_of (id + 42))), (TensorFromXavier (fun x => x) (fun x => x) inputs outputs 1 (seed_of (id' + 42))).
  split; [exact E|]. split; [exact E'|]. intros row column channel. unfold seed_of.
  assert (P : (2 ^ 32 = 4294967296)%N) by reflexivity. rewrite P. rewrite !N.mod_small by lia.
  apply seeds_lemma; [exact Hn|lia|lia|]. intros [q D]. assert (q = 0 \/ q <> 0)%Z as [->|] by lia; lia.
Qed.
Print Assumptions layers_differ_partial.

(** With sgd all layers of the same shape start from the same weights, in any arithmetic. *)
Theorem layers_differ_sgd_refuted : forall r32 r64 ls i j inputs outputs b b',
  nth_error ls i = Some (Full inputs outputs b) -> nth_error ls j = Some (Full inputs outputs b') ->
  exists t, nth_error (network_weights r32 r64 Sgd 0 ls) i = Some [t] /\ nth_error (network_weights r32 r64 Sgd 0 ls) j = Some [t].
Proof.
  intros r32 r64 ls i j inputs outputs b b' Hi Hj. exists (TensorFromXavier r32 r64 inputs outputs 1 (seed_of 42)).
  rewrite (ids_sgd r32 r64 ls 0 i _ Hi), (ids_sgd r32 r64 ls 0 j _ Hj). split; reflexivity.
Qed.
Print Assumptions layers_differ_sgd_refuted.

(** With the other optimizers two convolutions one after the other share filters: the third filter of the first is the first of the
    second. *)
Theorem filters_differ_refuted : forall r32 r64 kernel channels filters filters' b' ls, (3 <= filters)%N -> (1 <= filters')%N ->
  exists ts us t, network_weights r32 r64 WithMomentum 0 (Convolution kernel channels filters true :: Convolution kernel channels filters' b' :: ls) = ts :: us :: network_weights r32 r64 WithMomentum (if b' then 4 else 3) ls /\
    nth_error ts 2 = Some t /\ nth_error us 0 = Some t.
Proof.
  intros r32 r64 kernel channels filters filters' b' ls H H'.
  exists (layer_weights r32 r64 (Convolution kernel channels filters true) 0), (layer_weights r32 r64 (Convolution kernel channels filters' b') 2),
    (TensorFromXavier r32 r64 kernel kernel channels (seed_of 44)).
  split; [destruct b'; reflexivity|]. cbn [layer_weights].
  destruct (N.to_nat filters) as [|[|[|f]]] eqn:E; [lia..|]. destruct (N.to_nat filters') as [|f'] eqn:E'; [lia|]. split; reflexivity.
Qed.
Print Assumptions filters_differ_refuted.

(** Seeds are taken modulo 12345689. *)
Theorem far_seeds_refuted : forall r32 r64 rows cols channels seed,
  TensorFromXavier r32 r64 rows cols channels (seed + 12345689) = TensorFromXavier r32 r64 rows cols channels seed.
Proof.
  intros. unfold TensorFromXavier, with_bounds. cbv zeta. replace ((seed + 12345689) mod 12345689)%N with (seed mod 12345689)%N; [reflexivity|].
  rewrite <- (N.mul_1_l 12345689) at 2. rewrite N.mod_add by lia. reflexivity.
Qed.
Print Assumptions far_seeds_refuted.

(** Two equal layers in a network of three. *)
Example two_equal_layers : let ls := [Full 4 3 true; Full 3 3 true; Full 3 3 false] in
  nth_error ls 1 = Some (Full 3 3 true) /\ nth_error ls 2 = Some (Full 3 3 false) /\
  map (map (fun t => (rows t, cols t))) (network_weights float_round double_round Sgd 0 ls) = [[(4, 3)]; [(3, 3)]; [(3, 3)]]%N.
Proof. repeat split. Qed.
