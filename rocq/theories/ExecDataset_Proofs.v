From Coq Require Import Reals List Bool Arith NArith ZArith Lia Lra Permutation.
From Flocq Require Import Core.Core IEEE754.Binary IEEE754.Bits.
From Verif Require Import Chars Outcome TensorFile_Model F32_Model F32_Proofs Scaling_Model Scaling_Props Encode_Model DataSet_Model DataSet_Spec DataSet_Proofs ExecDataset_Model ExecDataset_Spec.
Import ListNotations.
Open Scope R_scope.

(** ** Reading the whole file *)
Lemma split_one n : (n <= 2 ^ 24)%N -> split_range n (of_Z 1) = Ok (0, n)%N.
Proof.
  intro H. destruct (val_of_Z_small 0) as [E0 F0]; [lia|]. destruct (val_of_Z_small 1) as [E1 F1]; [lia|].
  destruct (val_of_Z_small (Z.of_N n)) as [En Fn]; [lia|].
  unfold split_range. replace (fgt (of_Z 1) (of_Z 0)) with true by (symmetry; apply fgt_true; [exact F1|exact F0|rewrite E0, E1; lra]).
  assert (R0 : rnd (val (of_N n) * val (of_Z 1)) = IZR (Z.of_N n)).
  { unfold of_N. rewrite En, E1, Rmult_1_r. apply rnd_id. apply F32_Z. lia. }
  destruct (fmul_correct (of_N n) (of_Z 1)) as [EM FM]; [exact Fn|exact F1| |].
  - rewrite R0. rewrite <- abs_IZR. apply Rle_lt_trans with (bpow radix2 24); [|apply bpow_lt; lia].
    rewrite <- (IZR_Zpower radix2 24) by lia. apply IZR_le. change (Zpower radix2 24) with (2 ^ 24)%Z. lia.
  - rewrite R0 in EM. unfold to_size. rewrite (to_unsigned_ok 64 _ n); [reflexivity|lia|exact FM| |].
    + rewrite EM. rewrite plus_IZR. lra.
    + change (2 ^ 24)%N with 16777216%N in H. change (2 ^ 64)%Z with 18446744073709551616%Z. lia.
Qed.

Lemma listing {A} (d : A) l : map (fun i => nth (i + 0) l d) (seq 0 (length l)) = l.
Proof.
  induction l as [|a l IH]; [reflexivity|]. cbn [length seq map]. f_equal. rewrite <- seq_shift, map_map. exact IH.
Qed.

Lemma drain_all {A} (l : list A) shuffled : length shuffled = length l ->
  drain (next_binary {| file_rows := l; split_shuffler := shuffled; first_record_offset := 0; record_count := length l |} None) (S (length l)) 0 = Ok l.
Proof.
  intro H. destruct l as [|a l].
  - reflexivity.
  - rewrite (epoch_binary _ a); cbn [record_count split_shuffler file_rows first_record_offset order_of]; try exact H; try lia; [|reflexivity].
    f_equal. apply listing.
Qed.

Lemma omapM_map {A B C} (f : B -> outcome C) (g : A -> B) l : omapM f (map g l) = omapM (fun x => f (g x)) l.
Proof. induction l as [|a l IH]; [reflexivity|]. cbn [map omapM]. destruct (f (g a)); cbn [obind]; [|reflexivity|reflexivity]. now rewrite IH. Qed.

Lemma execute_rows predict shuffled d : length shuffled = length (rows d) -> (N.of_nat (length (rows d)) <= 2 ^ 24)%N ->
  execute_with_dataset predict shuffled d =
  omapM (fun row => show_predictions predict d (read_row (given_metadata d) (expected_metadata d) d row)) (rows d).
Proof.
  intros L H. unfold execute_with_dataset. rewrite split_one by exact H. cbn [obind fst snd]. change (N.to_nat 0) with 0%nat. rewrite Nat2N.id.
  set (f := read_row _ _ d). rewrite <- (map_length f (rows d)). rewrite drain_all by (rewrite map_length; exact L). cbn [obind]. apply omapM_map.
Qed.

Lemma omapM_pair {A B C} (P : B -> A -> Prop) (f : A -> outcome C) (g : B -> outcome C) bs l :
  Forall2 P bs l -> (forall b a, P b a -> f a = g b) -> omapM f l = omapM g bs.
Proof.
  intros H E. induction H as [|b a bs l Hp _ IH]; [reflexivity|]. cbn [omapM]. rewrite (E b a Hp). destruct (g b); cbn [obind]; try reflexivity. now rewrite IH.
Qed.

(** ** Labels *)
Lemma pick_done (o : nat) (a b : R) n : forall k res, b < a -> max_index_from k a res (map (fun c : nat => if (c =? o)%nat then a else b) (seq k n)) = res.
Proof.
  induction n as [|n IH]; intros k res H; [reflexivity|]. cbn [seq map max_index_from].
  destruct (Rlt_dec a (if (k =? o)%nat then a else b)) as [Q|_].
  - destruct (k =? o)%nat; lra.
  - apply IH; exact H.
Qed.
Lemma pick_later (o : nat) (a b : R) n : forall k res, b < a -> (k <= o < k + n)%nat -> max_index_from k b res (map (fun c : nat => if (c =? o)%nat then a else b) (seq k n)) = o.
Proof.
  induction n as [|n IH]; intros k res H Ho; [lia|]. cbn [seq map max_index_from]. destruct (Nat.eqb_spec k o) as [->|N].
  - destruct (Rlt_dec b a) as [_|]; [|lra]. apply pick_done; exact H.
  - destruct (Rlt_dec b b); [lra|]. apply IH; [exact H|lia].
Qed.
Lemma pick_one_hot (o : nat) (a b : R) n : b < a -> (o < n)%nat -> max_index (map (fun c : nat => if (c =? o)%nat then a else b) (seq 0 n)) = o.
Proof.
  intros H Ho. destruct n as [|n]; [lia|]. cbn [seq map max_index]. destruct (Nat.eqb_spec 0 o) as [<-|N].
  - apply pick_done; exact H.
  - apply pick_later; [exact H|lia].
Qed.

Lemma label_index_some ls s : forall i o, label_index i ls s = Some o -> (i <= o < i + length ls)%nat /\ nth_error ls (o - i) = Some s.
Proof.
  induction ls as [|l ls IH]; intros i o H; cbn [label_index] in H; [discriminate|]. destruct (seq_eqb_spec l s) as [->|N].
  - injection H as <-. cbn [length]. rewrite Nat.sub_diag. split; [lia|reflexivity].
  - destruct (IH _ _ H) as [A B]. cbn [length]. split; [lia|]. replace (o - i)%nat with (S (o - S i)) by lia. exact B.
Qed.

(** ** Scaling *)
Lemma scale_mono s x y : proper s -> x < y -> (scale exact s x : R) < scale exact s y.
Proof.
  intros [P Q] H. unfold scale, standardise, normalise. cbn.
  assert (A : (if is_standardized exact s then (x - mean exact s) / standard_deviation exact s else x) < (if is_standardized exact s then (y - mean exact s) / standard_deviation exact s else y)).
  { destruct (is_standardized exact s); [|exact H]. specialize (P eq_refl). unfold Rdiv. apply Rmult_lt_compat_r; [now apply Rinv_0_lt_compat|lra]. }
  destruct (is_normalized exact s); [|exact A]. specialize (Q eq_refl). unfold Rdiv. apply Rmult_lt_compat_r; [apply Rinv_0_lt_compat; lra|].
  apply Rplus_lt_compat_r. exact A.
Qed.
Lemma unscale_scale s x : proper s -> unscale exact s (scale exact s x) = x.
Proof.
  intros [P Q]. apply (scaling_undone s x); intro E; [specialize (P E)|specialize (Q E)]; intro Z; rewrite Z in *; lra.
Qed.
Lemma rescaled s s' x : proper s -> rescale exact s s' (scale exact s x) = scale exact s' x.
Proof.
  intros [P Q]. apply (rescaling_is_scaling s s' x); intro E; [specialize (P E)|specialize (Q E)]; intro Z; rewrite Z in *; lra.
Qed.
Lemma scale_none s x : is_standardized exact s = false -> is_normalized exact s = false -> scale exact s x = x.
Proof. intros A B. unfold scale. now rewrite A, B. Qed.

(** ** One column *)
Definition bit (o c : nat) : R := if (c =? o)%nat then 1 else 0.
Lemma encode_cases m v t : proper_column m -> encode m v = Some t ->
  (exists xs, v = Numbers xs /\ m_purpose m = Number /\ t = map (scale exact (m_scaling m)) xs) \/
  (exists xs, v = Numbers xs /\ m_purpose m = Image /\ t = xs) \/
  (exists s o, v = Word s /\ m_purpose m = Label /\ (o < length (m_labels m))%nat /\ label_index 0 (m_labels m) s = Some o /\ nth_error (m_labels m) o = Some s /\
     t = map (bit o) (seq 0 (length (m_labels m)))).
Proof.
  intros P H. unfold encode in H. destruct (m_purpose m) eqn:E, v as [xs|s]; try discriminate.
  - injection H as <-. right; left. now exists xs.
  - injection H as <-. left. now exists xs.
  - right; right. destruct (label_index 0 (m_labels m) s) as [o|] eqn:L; [|discriminate]. injection H as <-.
    destruct (label_index_some _ _ _ _ L) as [A B]. rewrite Nat.sub_0_r in B. exists s, o. repeat split; auto; lia.
Qed.

(** Decoding what was encoded. *)
Lemma decode_encoded m v t : proper_column m -> encode m v = Some t -> record_to_strings (build_decoder false m) t = Ok (written m v).
Proof.
  intros P H. destruct (encode_cases m v t P H) as [(xs & -> & E & ->)|[(xs & -> & E & ->)|(s & o & -> & E & Ho & _ & N & ->)]]; unfold build_decoder; rewrite E; cbn [record_to_strings written].
  - rewrite E, map_map. do 2 f_equal. rewrite <- (map_id xs) at 2. apply map_ext. intro x. apply unscale_scale, P.
  - rewrite E. reflexivity.
  - unfold bit. rewrite pick_one_hot by (try lra; exact Ho). now rewrite N.
Qed.
(** Decoding what was encoded and then scaled as another column. *)
Lemma decode_rescaled first m v t : proper_column first -> proper_column m -> encode m v = Some t ->
  record_to_strings (build_decoder false m) (map (rescale exact (m_scaling m) (m_scaling first)) t) = Ok (misread first m v).
Proof.
  intros P0 P H. destruct (encode_cases m v t P H) as [(xs & -> & E & ->)|[(xs & -> & E & ->)|(s & o & -> & E & Ho & _ & N & ->)]]; unfold build_decoder; rewrite E; cbn [record_to_strings misread].
  - rewrite E, !map_map. do 2 f_equal. apply map_ext. intro x. now rewrite rescaled by apply P.
  - rewrite E. do 2 f_equal. apply map_ext. intro x. destruct (proj2 P) as [A B]; [rewrite E; discriminate|].
    rewrite <- (scale_none (m_scaling m) x A B) at 1. now rewrite rescaled by apply P.
  - assert (Q : map (rescale exact (m_scaling m) (m_scaling first)) (map (bit o) (seq 0 (length (m_labels m)))) =
               map (fun c : nat => if (c =? o)%nat then (scale exact (m_scaling first) 1 : R) else (scale exact (m_scaling first) 0 : R)) (seq 0 (length (m_labels m)))).
    { rewrite map_map. apply map_ext. intro c. destruct (proj2 P) as [A B]; [rewrite E; discriminate|].
      rewrite <- (scale_none (m_scaling m) (bit o c) A B). rewrite rescaled by apply P. unfold bit. destruct (c =? o)%nat; reflexivity. }
    rewrite Q. rewrite pick_one_hot; [now rewrite N|apply scale_mono; [apply P0|lra]|exact Ho].
Qed.

Lemma one_hot_plain ls s : forall i o, label_index i ls s = Some o -> NoDup ls ->
  map (fun l => if seq_eqb l s then 1 else 0) ls = map (bit o) (seq i (length ls)).
Proof.
  induction ls as [|l ls IH]; intros i o H D; [discriminate|]. cbn [label_index] in H. inversion D as [|? ? D1 D2]; subst. cbn [map length seq]. destruct (seq_eqb_spec l s) as [->|N].
  - injection H as <-. f_equal; [unfold bit; now rewrite Nat.eqb_refl|].
    clear - D1. assert (G : forall k n, (i < k)%nat -> map (bit i) (seq k n) = repeat 0 n).
    { intros k n. revert k. induction n as [|n IH]; intros k Hk; [reflexivity|]. cbn [seq map repeat]. f_equal; [unfold bit; destruct (Nat.eqb_spec k i); [lia|reflexivity]|apply IH; lia]. }
    rewrite G by lia. clear G. induction ls as [|l ls IH]; [reflexivity|]. cbn [map length repeat]. destruct (seq_eqb_spec l s) as [->|]; [exfalso; apply D1; now left|].
    f_equal. apply IH. intro; apply D1; now right.
  - destruct (label_index_some _ _ _ _ H) as [A _]. f_equal; [|now apply IH]. unfold bit. destruct (Nat.eqb_spec i o); [lia|reflexivity].
Qed.

(** What the network receives of a column. *)
Lemma rescaled_plain first m v t : proper_column m -> NoDup (m_labels m) -> encode m v = Some t ->
  map (rescale exact (m_scaling m) (m_scaling first)) t = map (scale exact (m_scaling first)) (plain m v).
Proof.
  intros P D H. destruct (encode_cases m v t P H) as [(xs & -> & E & ->)|[(xs & -> & E & ->)|(s & o & -> & E & Ho & L & N & ->)]]; cbn [plain].
  - rewrite map_map. apply map_ext. intro x. now rewrite rescaled by apply P.
  - apply map_ext. intro x. destruct (proj2 P) as [A B]; [rewrite E; discriminate|].
    rewrite <- (scale_none (m_scaling m) x A B) at 1. now rewrite rescaled by apply P.
  - rewrite (one_hot_plain _ _ _ _ L D). apply map_ext. intro x. destruct (proj2 P) as [A B]; [rewrite E; discriminate|].
    rewrite <- (scale_none (m_scaling m) x A B) at 1. now rewrite rescaled by apply P.
Qed.
Lemma rescaled_alike first m v t : proper_column m -> alike first m -> encode m v = Some t ->
  map (rescale exact (m_scaling m) (m_scaling first)) t = t.
Proof.
  intros P A H. assert (G : forall x : R, rescale exact (m_scaling m) (m_scaling first) (scale exact (m_scaling m) x) = scale exact (m_scaling m) x).
  { intro x. rewrite rescaled by apply P. apply A. }
  destruct (encode_cases m v t P H) as [(xs & -> & E & ->)|[(xs & -> & E & ->)|(s & o & -> & E & Ho & L & N & ->)]].
  - rewrite map_map. apply map_ext. exact G.
  - rewrite <- (map_id xs) at 2. apply map_ext. intro x. destruct (proj2 P) as [A1 B]; [rewrite E; discriminate|].
    rewrite <- (scale_none (m_scaling m) x A1 B) at 1. now rewrite G, scale_none.
  - transitivity (map (fun x : R => x) (map (bit o) (seq 0 (length (m_labels m))))); [|apply map_id]. apply map_ext. intro x. destruct (proj2 P) as [A1 B]; [rewrite E; discriminate|].
    rewrite <- (scale_none (m_scaling m) x A1 B) at 1. now rewrite G, scale_none.
Qed.

(** ** One record *)
Lemma group_written ms vs ts : Forall proper_column ms -> stores ms vs ts ->
  record_group_to_strings (map (build_decoder false) ms) ts = Ok (all_written ms vs).
Proof.
  intros P H. induction H as [|m v t ms vs ts E H IH]; [reflexivity|]. inversion P; subst. cbn [map record_group_to_strings].
  rewrite (decode_encoded m v t) by assumption. cbn [obind]. rewrite IH by assumption. reflexivity.
Qed.
Lemma group_misread first ms vs ts : proper_column first -> Forall proper_column ms -> stores ms vs ts ->
  record_group_to_strings (map (build_decoder false) ms) (map (fun p => map (rescale exact (m_scaling (fst p)) (m_scaling first)) (snd p)) (combine ms ts)) =
  Ok (map (fun p => misread first (fst p) (snd p)) (combine ms vs)).
Proof.
  intros P0 P H. induction H as [|m v t ms vs ts E H IH]; [reflexivity|]. inversion P; subst. cbn [map combine fst snd record_group_to_strings].
  rewrite (decode_rescaled first m v t) by assumption. cbn [obind]. rewrite IH by assumption. reflexivity.
Qed.
Lemma group_plain first ms vs ts : Forall proper_column ms -> Forall (fun m => NoDup (m_labels m)) ms -> stores ms vs ts ->
  map (fun p => map (rescale exact (m_scaling (fst p)) (m_scaling first)) (snd p)) (combine ms ts) =
  map (fun p => map (scale exact (m_scaling first)) (plain (fst p) (snd p))) (combine ms vs).
Proof.
  intros P D H. induction H as [|m v t ms vs ts E H IH]; [reflexivity|]. inversion P; inversion D; subst. cbn [map combine fst snd].
  rewrite (rescaled_plain first m v t) by assumption. now rewrite IH by assumption.
Qed.
Lemma group_alike first ms vs ts : Forall proper_column ms -> Forall (alike first) ms -> stores ms vs ts ->
  map (fun p => map (rescale exact (m_scaling (fst p)) (m_scaling first)) (snd p)) (combine ms ts) = ts.
Proof.
  intros P A H. induction H as [|m v t ms vs ts E H IH]; [reflexivity|]. inversion P; inversion A; subst. cbn [map combine fst snd].
  rewrite (rescaled_alike first m v t) by assumption. now rewrite IH by assumption.
Qed.

Lemma stores_typed ms vs ts : stores ms vs ts -> typed ms vs = ts.
Proof. intro H. induction H as [|m v t ms vs ts E H IH]; [reflexivity|]. unfold typed in *. cbn [combine map fst snd]. now rewrite E, IH. Qed.

Lemma Forall2_firstn {A B} (P : A -> B -> Prop) n : forall l l', Forall2 P l l' -> Forall2 P (firstn n l) (firstn n l').
Proof. induction n as [|n IH]; intros l l' H; [constructor|]. destruct H; cbn [firstn]; constructor; auto. Qed.
Lemma omapM_ok {A B} (f : A -> outcome B) (g : A -> B) l : (forall x, In x l -> f x = Ok (g x)) -> omapM f l = Ok (map g l).
Proof.
  induction l as [|a l IH]; intro H; [reflexivity|]. cbn [omapM map]. rewrite H by now left. cbn [obind]. rewrite IH by (intros; apply H; now right). reflexivity.
Qed.

Lemma limited_rows n (limit : Z) : (0 <= limit < 2 ^ 64)%Z -> max_result_rows n limit = Nat.min n (Z.to_nat limit).
Proof.
  intro H. unfold max_result_rows. destruct (Z.eqb_spec limit (-1)); [lia|]. rewrite Z.mod_small by exact H. clear n0. lia.
Qed.
Lemma negative_rows n (limit : Z) : (- 2 ^ 31 <= limit < 0)%Z -> (N.of_nat n < 2 ^ 63)%N -> max_result_rows n limit = n.
Proof.
  intros H Hn. unfold max_result_rows. destruct (Z.eqb_spec limit (-1)); [reflexivity|].
  replace (limit mod 2 ^ 64)%Z with (limit + 2 ^ 64)%Z by (rewrite <- (Z.mod_add limit 1 (2 ^ 64)) by discriminate; rewrite Z.mod_small; lia).
  clear n0. lia.
Qed.
Lemma firstn_min {A} (l : list A) k : firstn (Nat.min (length l) k) l = firstn k l.
Proof.
  destruct (Nat.le_ge_cases (length l) k) as [L|L].
  - rewrite Nat.min_l by exact L. now rewrite firstn_all, firstn_all2.
  - now rewrite Nat.min_r by exact L.
Qed.

Lemma raw_group ms vs ts : stores ms vs ts -> record_group_to_strings (map (build_decoder true) ms) ts = Ok (map ShowValues ts).
Proof. intro H. induction H as [|m v t ms vs ts E H IH]; [reflexivity|]. cbn [map record_group_to_strings record_to_strings obind]. rewrite IH. reflexivity. Qed.

Lemma pretty_rows d records k (raw : bool) f : holds d records ->
  (forall r row, In r records -> stores (given_metadata d) (fst r) (fst row) -> stores (expected_metadata d) (snd r) (snd row) ->
     merge_records (map (build_decoder raw) (expected_metadata d)) (snd row) (map (build_decoder raw) (given_metadata d)) (fst row) = Ok (f r row)) ->
  omapM (fun row => let (given, expected) := read_row [] [] d row in
                    merge_records (map (build_decoder raw) (expected_metadata d)) expected (map (build_decoder raw) (given_metadata d)) given) (firstn k (rows d)) =
  Ok (map (fun p => f (fst p) (snd p)) (combine (firstn k records) (firstn k (rows d)))).
Proof.
  intros H G. unfold holds in H. assert (G' : forall r row, In r records -> stores (given_metadata d) (fst r) (fst row) /\ stores (expected_metadata d) (snd r) (snd row) ->
     merge_records (map (build_decoder raw) (expected_metadata d)) (snd row) (map (build_decoder raw) (given_metadata d)) (fst row) = Ok (f r row)) by (intros r row I [A B]; now apply G).
  clear G. revert k. induction H as [|r row rs rws Hr H IH]; intro k; [destruct k; reflexivity|].
  destruct k as [|k]; [reflexivity|]. cbn [firstn omapM combine map fst snd]. unfold read_row at 1. cbn [load_group].
  rewrite (G' r row (or_introl eq_refl) Hr). cbn [obind]. rewrite IH by (intros; apply G'; [now right|assumption]). reflexivity.
Qed.
