(** C31 (labels), C60 (inputs of a task), C64 (queries are encoded like training data). *)
From Coq Require Import Reals List Bool Arith NArith ZArith Ascii String Lia Lra.
From Flocq Require Import Core IEEE754.BinarySingleNaN IEEE754.Binary IEEE754.Bits.
From Verif Require Import Outcome Chars Delimited_Model F32_Model F32_Proofs TensorFile_Proofs Scaling_Model Encode_Model Encode_Proofs.
Import ListNotations.
Local Open Scope nat_scope.

(** C31: encoding known labels gives one row per word, 1 in the column of the label and 0 elsewhere. *)
Theorem label_one_hot : forall labels words, NoDup labels -> Forall (fun w => In (strip w) labels) words ->
  exists rows, category_encode labels words (List.length words) (List.length labels) 1 true = Ok [rows] /\
    Forall2 (fun w row => List.length row = List.length labels /\
      forall c l, nth_error labels c = Some l -> (l = strip w -> nth_error row c = Some f1) /\ (l <> strip w -> nth_error row c = Some f0)) words rows.
Proof.
  intros labels words Hn Hw. unfold category_encode. rewrite mapping_length by exact Hn. rewrite !Nat.eqb_refl. cbn [negb].
  assert (G : exists offsets, omapM (fun word => do o <- map_at (category_mapping labels) (strip word); if List.length labels <=? o then Throw else Ok o) words = Ok offsets /\
     Forall2 (fun w o => nth_error labels o = Some (strip w)) words offsets).
  { induction Hw as [|w words Hw _ (offsets & E & F)]; [exists []; split; constructor|]. apply In_nth_error in Hw as [i Hi].
    exists (i :: offsets). split; [|now constructor]. cbn [omapM]. rewrite (map_at_known labels (strip w) i Hn Hi). cbn [obind].
    assert (i < List.length labels) by (apply nth_error_Some; congruence). rewrite (proj2 (Nat.leb_gt _ _)) by lia. cbn [obind]. now rewrite E. }
  destruct G as (offsets & E & F). rewrite E. cbn [obind]. eexists. split; [reflexivity|].
  induction F as [|w o ws os Ho F IH]; [constructor|]. inversion Hw; subst. cbn [map].
  constructor.
  - split; [now rewrite map_length, seq_length|]. intros c l Hc. assert (c < List.length labels) by (apply nth_error_Some; congruence).
    rewrite (map_nth_error _ c (seq 0 (List.length labels)) (d := c)).
    2:{ rewrite (nth_error_nth' _ 0) by (now rewrite seq_length). now rewrite seq_nth by lia. }
    split; intro El.
    + subst l. replace c with o; [now rewrite Nat.eqb_refl|]. apply (NoDup_nth_error labels); [exact Hn|apply nth_error_Some; congruence|congruence].
    + destruct (Nat.eqb_spec c o) as [->|]; [congruence|reflexivity].
  - apply IH; [assumption|]. cbn [omapM] in E. rewrite (map_at_known labels (strip w) o Hn Ho) in E. cbn [obind] in E.
    destruct (List.length labels <=? o); [discriminate|]. cbn [obind] in E. destruct (omapM _ ws) as [os'| |] eqn:E'; try discriminate. cbn [obind] in E. congruence.
Qed.
Print Assumptions label_one_hot.

(** Decoding the encoding of a label gives the label; so different labels have different encodings. *)
Theorem label_round_trip : forall labels w, NoDup labels -> In (strip w) labels ->
  exists t, category_encode labels [w] 1 (List.length labels) 1 true = Ok t /\ decode_best labels t = Ok (strip w).
Proof.
  intros labels w Hn Hw. destruct (label_one_hot labels [w] Hn (Forall_cons w Hw (Forall_nil (fun w => In (strip w) labels)))) as (rows & E & F).
  exists [rows]. split; [exact E|]. inversion F as [|? row ? ? [L R] F']; subst. inversion F'; subst. unfold decode_best, first_row.
  apply In_nth_error in Hw as [i Hi]. destruct (R i _ Hi) as [R1 _]. specialize (R1 eq_refl).
  assert (Hall : Forall (fun x => x = f0 \/ x = f1) row).
  { apply Forall_forall. intros x Hx. apply In_nth_error in Hx as [c Hc]. assert (c < List.length row) by (apply nth_error_Some; congruence).
    destruct (nth_error labels c) as [l|] eqn:El; [|apply nth_error_None in El; lia]. destruct (R c l El) as [Ra Rb].
    destruct (list_eq_dec Ascii.ascii_dec l (strip w)) as [D|D]; [specialize (Ra D); right|specialize (Rb D); left]; congruence. }
  destruct (max_index_spec row) as (v & Hv & Hmax & Hfirst).
  { intros ->. destruct i; discriminate. }
  { eapply Forall_impl; [|exact Hall]. intros x [-> | ->]; reflexivity. }
  assert (I : In f1 row) by (eapply nth_error_In; exact R1).
  assert (Rv : rv f1 = 1%R). { unfold rv, f1. cbn. unfold F2R. cbn. lra. }
  assert (Rz : rv f0 = 0%R) by reflexivity.
  assert (v = f1). { pose proof (Hmax f1 I). rewrite Forall_forall in Hall. destruct (Hall v (nth_error_In _ _ Hv)) as [->|]; [rewrite Rv, Rz in *; lra|assumption]. }
  subst v. destruct (nth_error labels (max_index row)) as [l|] eqn:El.
  - f_equal. destruct (R _ l El) as [_ Rb]. destruct (list_eq_dec Ascii.ascii_dec l (strip w)) as [D|D]; [exact D|].
    specialize (Rb D). rewrite Hv in Rb. assert (rv f1 = rv f0) by congruence. lra.
  - exfalso. apply nth_error_None in El. assert (max_index row < List.length row) by (apply nth_error_Some; congruence). lia.
Qed.
Print Assumptions label_round_trip.

(** An unknown label is an exception, not some other label. *)
Theorem label_unknown_throws : forall labels words rows columns channels (trim : bool) w,
  In w words -> ~ In (if trim then strip w else w) labels -> category_encode labels words rows columns channels trim = Throw.
Proof.
  intros labels words rows columns channels trim w Hw Hu. unfold category_encode.
  destruct (negb (channels =? 1)); [reflexivity|]. destruct (negb (_ =? rows)); [reflexivity|]. destruct (negb (columns =? _)); [reflexivity|].
  rewrite (omapM_throw _ words w); [reflexivity| |exact Hw|].
  - intros y _. unfold map_at. destruct (find _ _); cbn [obind]; [destruct (_ <=? _)|]; discriminate.
  - rewrite map_at_unknown by exact Hu. reflexivity.
Qed.
Print Assumptions label_unknown_throws.

(** What is shown for any output row without NaN: the first label whose value no other exceeds. *)
Theorem decode_best_is_maximum : forall labels (row : list binary32) rest others, List.length row = List.length labels -> row <> [] ->
  Forall (fun x => is_nan 24 128 x = false) row ->
  exists k l v, decode_best labels ((row :: rest) :: others) = Ok l /\ nth_error labels k = Some l /\ nth_error row k = Some v /\
    (forall x, In x row -> fgt x v = false) /\ forall j x, j < k -> nth_error row j = Some x -> fgt v x = true.
Proof.
  intros labels row rest others L Hr Hn. destruct (max_index_spec row Hr Hn) as (v & Hv & Hm & Hf).
  assert (max_index row < List.length labels) by (rewrite <- L; apply (proj1 (nth_error_Some row (max_index row))); rewrite Hv; discriminate).
  destruct (nth_error labels (max_index row)) as [l|] eqn:El; [|apply nth_error_None in El; lia].
  exists (max_index row), l, v. unfold decode_best. cbn [first_row]. rewrite El. rewrite Forall_forall in Hn.
  assert (Nv : is_nan 24 128 v = false) by (eapply Hn, nth_error_In; exact Hv).
  repeat split; try assumption.
  - intros x Hx. destruct (fgt x v) eqn:F; [|reflexivity]. apply (fgt_rv x v (Hn x Hx) Nv) in F. specialize (Hm x Hx). lra.
  - intros j x Hj Hx. apply (fgt_rv v x Nv (Hn x (nth_error_In _ _ Hx))). eapply Hf; eassumption.
Qed.
Print Assumptions decode_best_is_maximum.

(** Every record of the file encodes with the labels found in the file, whatever the order of the
    hash set: the label column has one source column. *)
Theorem file_labels_complete : forall records start labels record w,
  NoDup labels -> (forall l, In l labels <-> In l (column_texts records start true)) ->
  In record records -> nth_error record start = Some w ->
  exists t, category_encode labels [w] 1 (List.length labels) 1 true = Ok t /\ decode_best labels t = Ok (strip w).
Proof.
  intros records start labels record w Hn Hl Hr Hw. apply label_round_trip; [exact Hn|]. apply Hl. unfold column_texts.
  apply in_flat_map. exists record. split; [exact Hr|]. rewrite Hw. now left.
Qed.
Print Assumptions file_labels_complete.

(** Finding: a label group of two source columns takes its labels from the first column only; a
    record of the file itself is then rejected. *)
Theorem file_labels_two_columns_refuted : exists records record, In record records /\
  forall labels, NoDup labels -> (forall l, In l labels <-> In l (column_texts records 0 true)) ->
  category_encode labels record 2 (List.length labels) 1 true = Throw.
Proof.
  exists [[lit "a"; lit "b"]], [lit "a"; lit "b"]. split; [now left|]. intros labels Hn Hl.
  apply (label_unknown_throws labels _ _ _ _ true (lit "b")); [right; now left|]. cbn [strip]. intro H. apply Hl in H. vm_compute in H. destruct H as [H|[]]. discriminate.
Qed.
Print Assumptions file_labels_two_columns_refuted.

(** C64, numbers: a query gives the values, in the same order, that a dataset row with the same
    numbers gives, and fails exactly when that would fail. *)
(** Partial, C64: the values; the same tensor is refuted for labels and images. *)
Theorem query_numbers_same_values_partial : forall stringToFloat c text words, c_purpose c = Number ->
  Forall2 (fun v w => as_float v = stringToFloat (strip w)) text words ->
  omap flat3 (variant_encode c text) = omap flat3 (dataset_encode stringToFloat c words).
Proof.
  intros stf c text words Hp H. unfold variant_encode, dataset_encode, scalar_encode. rewrite Hp. rewrite !omap_omap.
  set (S := scale float32 (c_scaling c)).
  rewrite (omap_ext (fun a => flat3 (map3 S a)) (fun a => map S (flat3 a)) _ (flat3_map3 S)).
  rewrite (omap_ext (fun a => flat3 (map3 S a)) (fun a => map S (flat3 a)) _ (flat3_map3 S)).
  rewrite <- !(omap_omap (map S) flat3). f_equal.
  rewrite (build3_flat _ _ _ _ (fun k => do v <- vec_at text k; as_float v)).
  2:{ intros ch i j Hi Hj. do 2 f_equal. lia. }
  rewrite (build3_flat _ _ _ _ (fun k => do w <- vec_at words k; stf (strip w))).
  2:{ intros ch i j Hi Hj. reflexivity. }
  replace (c_channels c * c_columns c * c_rows c) with (c_channels c * c_rows c * c_columns c) by lia.
  apply omapM_ext. intros k _. unfold vec_at.
  assert (G : forall k, match nth_error text k, nth_error words k with Some v, Some w => as_float v = stf (strip w) | None, None => True | _, _ => False end).
  { clear - H. induction H as [|v w text words E F IH]; intros [|k]; cbn [nth_error]; auto; apply IH. }
  specialize (G k). destruct (nth_error text k), (nth_error words k); cbn [obind]; try easy.
Qed.
Print Assumptions query_numbers_same_values_partial.

(** With as many rows as columns (in particular a plain number) the tensors are identical. *)
Theorem query_square_numbers_same_tensor : forall stringToFloat c text words, c_purpose c = Number -> c_rows c = c_columns c ->
  Forall2 (fun v w => as_float v = stringToFloat (strip w)) text words ->
  variant_encode c text = dataset_encode stringToFloat c words.
Proof.
  intros stf c text words Hp Hrc H. unfold variant_encode, dataset_encode, scalar_encode. rewrite Hp, Hrc. f_equal.
  unfold build3. apply omapM_ext. intros ch _. apply omapM_ext. intros i _. apply omapM_ext. intros j _.
  replace (ch * c_columns c * c_columns c + i * c_columns c + j) with ((ch * c_columns c + i) * c_columns c + j) by lia.
  generalize ((ch * c_columns c + i) * c_columns c + j). intro k. unfold vec_at.
  assert (G : forall k, match nth_error text k, nth_error words k with Some v, Some w => as_float v = stf (strip w) | None, None => True | _, _ => False end).
  { clear - H. induction H as [|v w text words E F IH]; intros [|n]; cbn [nth_error]; auto; apply IH. }
  specialize (G k). destruct (nth_error text k), (nth_error words k); cbn [obind]; try easy.
Qed.
Print Assumptions query_square_numbers_same_tensor.

Definition plain : scaling float32 := {| is_standardized := false; mean := f0 : num float32; standard_deviation := f0 : num float32; is_normalized := false; min_value := f0 : num float32; max_value := f0 : num float32 |}.
Definition said (s : str) (v : outcome binary32) : variant := {| to_string := s; as_float := v |}.

Definition label_column (labels : list str) : column :=
  {| c_purpose := Label; c_rows := 1; c_columns := List.length labels; c_channels := 1; c_scaling := plain; c_labels := labels; c_name := [] |}.

Lemma label_index_nth labels s : NoDup labels -> In s labels -> forall k, exists i, label_index k labels s = Some (k + i) /\ nth_error labels i = Some s.
Proof.
  intros Hn Hs. induction Hn as [|l labels Hl Hn IH]; intro k; [destruct Hs|]. cbn [label_index]. destruct (seq_eqb_spec l s) as [->|D].
  - exists 0. rewrite Nat.add_0_r. auto.
  - destruct Hs as [->|Hs]; [easy|]. destruct (IH Hs (S k)) as (i & E & N). exists (S i). rewrite E. split; [f_equal; lia|exact N].
Qed.

(** Labels: the same ones and zeros, but the query tensor is a column where the dataset has a row. *)
Theorem query_labels_same_values : forall stringToFloat labels w v rest, NoDup labels -> In (strip w) labels -> v = strip w ->
  exists row, dataset_encode stringToFloat (label_column labels) [w] = Ok [[row]] /\
    variant_encode (label_column labels) (said v rest :: []) = Ok [map (fun x => [x]) row].
Proof.
  intros stf labels w v rest Hn Hw ->. unfold dataset_encode, variant_encode, label_column. cbn [c_purpose c_rows c_columns c_channels c_labels].
  destruct (label_one_hot labels [w] Hn (Forall_cons w Hw (Forall_nil (fun w => In (strip w) labels)))) as (rows & E & F). cbn [List.length] in E.
  inversion F as [|? row ? ? [L R] F']; subst. inversion F'; subst. exists row. split; [exact E|].
  cbn [said to_string]. destruct (label_index_nth labels (strip w) Hn Hw 0) as (i & -> & Hi). cbn [Nat.add].
  unfold build3. cbn [seq omapM obind].
  rewrite (omapM_ok _ (fun c => [if c =? i then f1 else f0])) by (intros; reflexivity). cbn [obind]. do 2 f_equal.
  rewrite <- (map_map (fun c => if c =? i then f1 else f0) (fun x => [x])). f_equal.
  apply nth_ext with (d := f0) (d' := f0); [now rewrite map_length, seq_length|]. rewrite map_length, seq_length. intros c Hc.
  rewrite (nth_indep _ f0 (if 0 =? i then f1 else f0)) by (now rewrite map_length, seq_length). rewrite (map_nth (fun c => if c =? i then f1 else f0) _ 0), seq_nth by exact Hc. cbn [Nat.add].
  destruct (nth_error labels c) as [l|] eqn:El; [|apply nth_error_None in El; lia]. destruct (R c l El) as [Ra Rb].
  destruct (Nat.eqb_spec c i) as [->|D].
  - symmetry. apply nth_error_nth. apply Ra. congruence.
  - symmetry. apply nth_error_nth. apply Rb. intros ->. apply D. apply (NoDup_nth_error labels); [exact Hn|apply nth_error_Some; congruence|congruence].
Qed.
Print Assumptions query_labels_same_values.

(** Finding: with two labels or more the shapes differ, so the query tensor is not the tensor the
    network was trained with (the first fully connected layer rejects it). *)
Theorem query_labels_same_tensor_refuted : forall stringToFloat labels w rest, NoDup labels -> In (strip w) labels -> 2 <= List.length labels ->
  variant_encode (label_column labels) [said (strip w) rest] <> dataset_encode stringToFloat (label_column labels) [w].
Proof.
  intros stf labels w rest Hn Hw H2 E. destruct (query_labels_same_values stf labels w (strip w) rest Hn Hw eq_refl) as (row & E1 & E2).
  rewrite E1, E2 in E. injection E as E. assert (L : List.length row = List.length labels).
  { destruct (label_one_hot labels [w] Hn (Forall_cons w Hw (Forall_nil (fun w => In (strip w) labels)))) as (rows & E' & F). unfold dataset_encode, label_column in E1. cbn [c_purpose c_rows c_columns c_channels c_labels] in E1.
    cbn [List.length] in E'. rewrite E' in E1. injection E1 as ->. inversion F as [|? ? ? ? [L _] _]; subst. exact L. }
  destruct row as [|a [|b row]]; cbn in *; try lia. discriminate.
Qed.
Print Assumptions query_labels_same_tensor_refuted.

(** Finding: image values of a query are not divided by 255. *)
Theorem query_images_refuted : exists c text words stringToFloat, c_purpose c = Image /\
  Forall2 (fun v w => as_float v = stringToFloat (strip w)) text words /\
  variant_encode c text <> dataset_encode stringToFloat c words /\
  exists a b, variant_encode c text = Ok a /\ dataset_encode stringToFloat c words = Ok b.
Proof.
  exists {| c_purpose := Image; c_rows := 1; c_columns := 1; c_channels := 1; c_scaling := plain; c_labels := []; c_name := [] |},
    [said (lit "1") (Ok f1)], [lit "1"], (fun _ => Ok f1).
  split; [reflexivity|]. split; [constructor; [reflexivity|constructor]|]. split; [|eexists; eexists; split; reflexivity].
  intro E. assert (X : omap (fun t => to_bits (hd f0 (first_row t))) (variant_encode {| c_purpose := Image; c_rows := 1; c_columns := 1; c_channels := 1; c_scaling := plain; c_labels := []; c_name := [] |} [said (lit "1") (Ok f1)]) = Ok 998277249%N) by (rewrite E; vm_compute; reflexivity).
  vm_compute in X. discriminate.
Qed.
Print Assumptions query_images_refuted.

(** C60: a task predicts from user inputs exactly when every column has an input that encodes, and
    the tensors are given in column order. *)
Theorem execute_uses_all_inputs : forall (col V T P : Type) lower_name (encode : col -> V -> outcome T) (predict : list T -> P) inputs encoders,
  (forall p, execute_with_inputs col V T lower_name encode predict inputs encoders = Ok (Some p) <->
     exists ts, Forall2 (fun e t => exists v, inputs (lower_name e) = Some v /\ encode e v = Ok t) encoders ts /\ p = predict ts) /\
  ((exists e, In e encoders /\ inputs (lower_name e) = None) -> (forall e v, encode e v <> UB) ->
     execute_with_inputs col V T lower_name encode predict inputs encoders = Ok None).
Proof.
  intros col V T P lower_name encode predict inputs encoders. unfold execute_with_inputs.
  assert (G : forall l ts, build_given col V T lower_name encode inputs l = Ok ts -> List.length ts = List.length l ->
    Forall2 (fun e t => exists v, inputs (lower_name e) = Some v /\ encode e v = Ok t) l ts).
  { clear. induction l as [|e l IH]; intros ts E L; cbn [build_given] in E.
    - injection E as <-. constructor.
    - destruct (inputs (lower_name e)) as [v|] eqn:Ei; [|injection E as <-; discriminate L].
      destruct (encode e v) as [t| |] eqn:Ee; try discriminate; [|injection E as <-; discriminate L].
      destruct (build_given col V T lower_name encode inputs l) as [ts'| |] eqn:Eb; try discriminate. cbn [obind] in E. injection E as <-.
      constructor; [eauto|]. apply IH; [reflexivity|]. cbn in L. lia. }
  assert (G2 : forall l ts, Forall2 (fun e t => exists v, inputs (lower_name e) = Some v /\ encode e v = Ok t) l ts -> build_given col V T lower_name encode inputs l = Ok ts).
  { clear. induction 1 as [|e t l ts (v & E1 & E2) F IH]; [reflexivity|]. cbn [build_given]. rewrite E1, E2, IH. reflexivity. }
  split.
  - intro p. split.
    + destruct (build_given _ _ _ _ _ _ _) as [ts| |] eqn:E; try discriminate. cbn [obind]. destruct (Nat.eqb_spec (List.length ts) (List.length encoders)) as [L|L]; [|discriminate].
      intro Q. injection Q as <-. exists ts. split; [now apply G|reflexivity].
    + intros (ts & F & ->). rewrite (G2 _ _ F). cbn [obind]. assert (L : List.length ts = List.length encoders) by (clear - F; induction F; cbn; congruence). rewrite L, Nat.eqb_refl. reflexivity.
  - intros (e & He & Hn) Hub.
    assert (B : forall l, exists ts, build_given col V T lower_name encode inputs l = Ok ts).
    { clear - Hub. induction l as [|a l [ts IH]]; cbn [build_given]; [eauto|]. destruct (inputs (lower_name a)) as [v|]; [|eauto].
      destruct (encode a v) eqn:E; [rewrite IH; cbn [obind]; eauto|eauto|exfalso; now apply (Hub a v)]. }
    destruct (B encoders) as [ts E]. rewrite E. cbn [obind]. destruct (Nat.eqb_spec (List.length ts) (List.length encoders)) as [L|L]; [|reflexivity].
    exfalso. pose proof (G _ _ E L) as F. clear - F He Hn. induction F as [|a t l ts (v & E1 & _) F IH]; [destruct He|].
    destruct He as [->|He]; [congruence|now apply IH].
Qed.
Print Assumptions execute_uses_all_inputs.

Example encode_ex :
  let labels := [lit "cat"; lit "dog"; lit "eel"] in
  (omap (map3 to_bits) (category_encode labels [lit " dog "] 1 3 1 true), category_encode labels [lit "cow"] 1 3 1 true,
   omap (map3 to_bits) (variant_encode (label_column labels) [said (lit "dog") Throw])) =
  (Ok [[[0; 1065353216; 0]%N]], Throw, Ok [[[0]; [1065353216]; [0]]%N]).
Proof. vm_compute. reflexivity. Qed.
