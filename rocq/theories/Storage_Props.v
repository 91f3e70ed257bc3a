(** C93, C94, C95 - tensors kept in 8, 16 or 32 bits. *)
From Coq Require Import NArith ZArith List Lia Bool.
From Verif Require Import Outcome Float32_Spec HalfFloat_Model HalfFloat_Props TensorFile_Model TensorFile_Spec Storage_Model Storage_Spec Storage_Proofs2 Storage_Proofs3 Storage_Proofs4 Storage_Proofs5 Storage_Proofs6.
Import ListNotations.
Local Open Scope Z_scope.

(** C93: kept in 8 bits, every tensor of numbers keeps its shape; an element below 1920 is off by at most a sixteenth of itself, or by at
    most 2^-14, or by at most 1/9400 of the largest element; a larger element becomes 1920 with its sign.
    Partial: the sign of small elements is not kept, see [quarter_sign_partial]. *)
Theorem eight_bits_error_partial : forall t, solid t -> all_elements t is_float ->
  elementwise t (materializeTensor t 8) (fun x y =>
    magnitude x < 1920 * one /\
      (16 * distance x y <= magnitude x \/ 2 ^ 14 * distance x y <= one \/ some_element t (fun m => 9400 * distance x y <= magnitude m)) \/
    1920 * one <= magnitude x /\ f32_units y = if f32_sign x then - (1920 * one) else 1920 * one).
Proof. exact eight_bits_error. Qed.
Print Assumptions eight_bits_error_partial.

(** C93: kept in 16 bits, an element keeps its sign, grows never, and is off by less than 1/128 of itself or 2^-133. Kept in 32 bits
    nothing changes, not even what is no number. *)
Theorem sixteen_bits_error : forall t, solid t -> all_elements t is_float ->
  elementwise t (materializeTensor t 16) (fun x y => f32_sign y = f32_sign x /\ magnitude y <= magnitude x /\ (128 * distance x y < magnitude x \/ 2 ^ 133 * distance x y < one)).
Proof.
  intros t Ht H. change (materializeTensor t 16) with (HalfTensor t). destruct (stored_copy halfToFloat floatToHalf t Ht) as (E1 & E2 & E3 & E). repeat split; try assumption; destruct (H r c k) as [Hx F]; try assumption;
    unfold HalfTensor; rewrite (E r c k) by assumption; destruct (half_error_bound _ Hx F) as (S1 & S2 & S3 & S4).
  - exact S1.
  - rewrite !Storage_Proofs.magnitude_eq. lia.
  - rewrite Storage_Proofs.distance_same_sign by (symmetry; exact S1). rewrite Storage_Proofs.magnitude_eq. destruct (N.eq_dec (f32_exp (value t r c k)) 0) as [E0|E0].
    + right. specialize (S4 E0). unfold one. change (2 ^ 149) with (2 ^ 133 * 65536). apply Z.mul_lt_mono_pos_l; [lia|]. change (2 ^ 16)%N with 65536%N in S4. lia.
    + left. specialize (S3 E0). change (2 ^ 7)%N with 128%N in S3. lia.
Qed.
Print Assumptions sixteen_bits_error.
Theorem thirty_two_bits_exact : forall t, solid t -> elementwise t (materializeTensor t 32) (fun x y => y = x).
Proof.
  intros t Ht. unfold materializeTensor. change (32 =? 32)%N with true. cbv iota. destruct (isMaterialized t); [repeat split|]. exact (stored_copy (fun x => x) (fun x => x) t Ht).
Qed.
Print Assumptions thirty_two_bits_exact.

(** C94: a tensor kept in 16 or 32 bits is the same after it has been saved and loaded. *)
Theorem reload_16_and_32_bits : forall t, solid t -> fits_file t -> all_elements t is_float ->
  (exists bytes s, save (materializeTensor t 16) = Ok bytes /\ loadTensor bytes 16 = Ok s /\ elementwise (materializeTensor t 16) s (fun y z => z = y)) /\
  (exists bytes s, save (materializeTensor t 32) = Ok bytes /\ loadTensor bytes 32 = Ok s /\ elementwise (materializeTensor t 32) s (fun y z => z = y)).
Proof.
  intros t Ht Hf H. split.
  - change (materializeTensor t 16) with (HalfTensor t). pose proof (stored_copy halfToFloat floatToHalf t Ht) as E. fold (HalfTensor t) in E. pose proof (elementwise_solid _ _ _ E Ht) as Hs.
    assert (Fl : all_elements (HalfTensor t) (fun x => (x < 2 ^ 32)%N)).
    { apply (elementwise_all _ _ _ is_float _ E H). intros x y [Hx F] ->. destruct (half_classes_kept x Hx) as (L & _). rewrite HalfFloat_Proofs.halfToFloat_eq by exact L.
      change (2 ^ 16)%N with 65536%N in *. change (2 ^ 32)%N with 4294967296%N. lia. }
    destruct (save_and_load (HalfTensor t)) as (bytes & Es & _ & El & _); [destruct E as (E1 & E2 & E3 & _); unfold fits_file; rewrite E1, E2, E3; exact Hf|exact Fl|].
    exists bytes, (HalfTensor (HalfTensor t)). split; [exact Es|]. split; [exact El|]. pose proof (stored_copy halfToFloat floatToHalf (HalfTensor t) Hs) as E'. fold (HalfTensor (HalfTensor t)) in E'.
    destruct E' as (A1 & A2 & A3 & A). destruct E as (E1 & E2 & E3 & E). repeat split; try assumption. intros r c k Hr Hc Hk. rewrite (A r c k Hr Hc Hk).
    rewrite E1 in Hr. rewrite E2 in Hc. rewrite E3 in Hk. rewrite (E r c k Hr Hc Hk). destruct (H r c k Hr Hc Hk) as [Hx F]. apply half_store_idempotent; [exact Hx|]. intros [C _]. unfold f32_finite in F. lia.
  - pose proof (thirty_two_bits_exact t Ht) as E. pose proof (elementwise_solid _ _ _ E Ht) as Hs. set (m := materializeTensor t 32) in *.
    destruct (save_and_load m) as (bytes & Es & _ & _ & El); [destruct E as (E1 & E2 & E3 & _); unfold fits_file; rewrite E1, E2, E3; exact Hf| |].
    + apply (elementwise_all _ _ _ is_float _ E H). intros x y [Hx _] ->. exact Hx.
    + exists bytes, (FullTensor m). split; [exact Es|]. split; [exact El|]. exact (stored_copy (fun x => x) (fun x => x) m Hs).
Qed.
Print Assumptions reload_16_and_32_bits.

(** C94: a tensor kept in 8 bits can be saved and loaded; each element is the same, or changes by less than 2^-12, or by at most 1/10000 of
    the largest element kept. Full statement: each element is the same; refuted below. *)
Theorem reload_8_bits_partial : forall t, solid t -> fits_file t -> all_elements t is_float -> let m := materializeTensor t 8 in
  exists bytes s, save m = Ok bytes /\ loadTensor bytes 8 = Ok s /\
    elementwise m s (fun y z => z = y \/ 2 ^ 12 * distance y z < one \/ some_element m (fun w => 10000 * distance y z <= magnitude w)).
Proof.
  intros t Ht Hf H m. destruct (m_file t Ht Hf H) as (bytes & E & L). exists bytes, (materializeTensor (HalfTensor m) 8). split; [exact E|]. split; [exact L|]. exact (reload_close t Ht H).
Qed.
Print Assumptions reload_8_bits_partial.

(** C94: if the largest element is between 15/16 and 29/16 of a power of two from 8 to 1024, or at least 960, then nothing changes. *)
Theorem reload_8_bits_large_partial : forall t k, solid t -> fits_file t -> all_elements t is_float -> 3 <= k <= 10 ->
  some_element t (fun x => 15 * 2 ^ k * one <= 16 * magnitude x) ->
  k = 10 \/ all_elements t (fun x => 16 * magnitude x < 29 * 2 ^ k * one) ->
  let m := materializeTensor t 8 in
  exists bytes s, save m = Ok bytes /\ loadTensor bytes 8 = Ok s /\ elementwise m s (fun y z => z = y).
Proof.
  intros t k Ht Hf H Hk So Al m. destruct (m_file t Ht Hf H) as (bytes & E & L). exists bytes, (materializeTensor (HalfTensor m) 8). split; [exact E|]. split; [exact L|]. exact (reload_same t k Ht Hf H Hk So Al).
Qed.
Print Assumptions reload_8_bits_large_partial.

(** Finding: with elements below 7.5, as weights are, every negative element closer to 0 than 2^-15 is kept as a positive number and is 0 after
    it has been saved and loaded. *)
Theorem reload_8_bits_refuted : forall t r c k, solid t -> fits_file t -> all_elements t is_float -> all_elements t (fun x => 2 * magnitude x < 15 * one) ->
  (r < rows t)%nat -> (c < cols t)%nat -> (k < chans t)%nat -> f32_sign (value t r c k) = true -> 2 ^ 15 * magnitude (value t r c k) < one ->
  let m := materializeTensor t 8 in
  exists bytes s, save m = Ok bytes /\ loadTensor bytes 8 = Ok s /\ 0 < f32_units (value m r c k) /\ value s r c k = 0%N.
Proof.
  intros t r c k Ht Hf H Sm Hr Hc Hk Sg M m. destruct (m_file t Ht Hf H) as (bytes & E & L). exists bytes, (materializeTensor (HalfTensor m) 8). split; [exact E|]. split; [exact L|].
  apply (reload_negative t Ht H r c k); try assumption. apply bias_small. apply all_in in Sm. rewrite Forall_forall in Sm. exact Sm.
Qed.
Print Assumptions reload_8_bits_refuted.

(** Finding: an element that is rounded up to the largest value makes loading choose a wider range, and small elements are lost. *)
Definition two (a b : N) : tensor := {| rows := 1; cols := 2; chans := 1; value := fun _ c _ => if (c =? 0)%nat then a else b; isMaterialized := false |}.
Theorem reload_8_bits_wider_refuted : exists t bytes s, all_elements t is_float /\ save (materializeTensor t 8) = Ok bytes /\ loadTensor bytes 8 = Ok s /\
  value (materializeTensor t 8) 0 1 0 = 0x38100000%N /\ value s 0 1 0 = 0%N.
Proof.
  set (t := two 0x3F6B851F 0x38100000). assert (F : all_elements t is_float).
  { intros r c k _ _ _. cbn [t two value]. destruct (c =? 0)%nat; split; reflexivity. }
  assert (Ht : solid t) by (repeat split; cbn; lia). assert (Hf : fits_file t) by (repeat split; reflexivity).
  destruct (m_file t Ht Hf F) as (bytes & E & L). exists t, bytes, (materializeTensor (HalfTensor (materializeTensor t 8)) 8). repeat split; try assumption; try (apply F; assumption); vm_compute; reflexivity.
Qed.
Print Assumptions reload_8_bits_wider_refuted.

(** Pi and -1000: kept in 8 bits as 3.25 and -960, and the same after loading. *)
Example storage_ex : let t := two 0x40490FDB 0xC47A0000 in
  solid t /\ fits_file t /\ all_elements t is_float /\ some_element t (fun x => 15 * 2 ^ 10 * one <= 16 * magnitude x) /\
  value (materializeTensor t 8) 0 0 0 = 0x40500000%N /\ value (materializeTensor t 8) 0 1 0 = 0xC4700000%N.
Proof.
  cbv zeta. split; [repeat split; cbn; lia|]. split; [repeat split; reflexivity|]. split; [intros r c k _ _ _; cbn [two value]; destruct (c =? 0)%nat; split; reflexivity|].
  split; [exists 0%nat, 1%nat, 0%nat; repeat split; try (cbn; lia); vm_compute; discriminate|]. split; vm_compute; reflexivity.
Qed.

(** C95: a tensor made from a nested list in which all rows and all channels have the same length holds exactly the values of the list, each in
    the chosen number of bits. *)
Theorem list_tensor_exact : forall {A} (zero : A) encode rows columns channels values, (0 < rows)%nat -> (0 < channels)%nat -> box rows columns channels values ->
  from_lists zero encode values = Ok (map3 encode values).
Proof.
  intros A zero encode R C K values HR HK B. pose proof (map3_box encode R C K values B) as B'. destruct (box_cell R C K values B) as [I1 I2]. destruct B as [L F].
  destruct values as [|[|row rest] channels]; [cbn in L; lia|inversion F as [|? ? [X _] _]; cbn in X; lia|]. inversion F as [|? ? [X Y] _]. inversion Y as [|? ? Z _]. subst. cbn [length] in *.
  destruct (from_lists_result zero encode row rest channels) as [W _]. cbv zeta in W. destruct W as (d & E & B2 & N); [intros r c k v Ev; destruct (I1 r c k v Ev) as (? & ? & _); lia|].
  rewrite E. f_equal. eapply box_cells; [exact B2|exact B'|]. intros r c k Hr Hc Hk. rewrite (N r c k Hr Hc Hk). rewrite cell_map3. destruct (I2 r c k Hr Hc Hk) as (v & ->). reflexivity.
Qed.
Print Assumptions list_tensor_exact.

(** C95: for every nested list with a first row: if some row is longer than the first row, or some channel has a row that is not empty beyond the
    number of rows of the first channel, an exception is thrown; otherwise the tensor has the shape of the first channel, and 0 where the list has no value. *)
Theorem list_tensor_partial : forall {A} (zero : A) encode row rest channels, let values := (row :: rest) :: channels in
  let fits := forall r c k v, cell values r c k = Some v -> (r <= List.length rest /\ c < List.length row)%nat in
  (fits -> exists d, from_lists zero encode values = Ok d /\ box (S (List.length rest)) (List.length row) (List.length values) d /\
     forall r c k, (r <= List.length rest)%nat -> (c < List.length row)%nat -> (k < List.length values)%nat ->
       cell d r c k = Some (match cell values r c k with Some v => encode v | None => zero end)) /\
  ((exists r c k v, cell values r c k = Some v /\ (List.length rest < r \/ List.length row <= c)%nat) -> from_lists zero encode values = Throw).
Proof.
  intros A zero encode row rest channels. cbv zeta. destruct (from_lists_result zero encode row rest channels) as [W1 W2]. cbv zeta in W1, W2. split.
  - intro H. destruct W1 as (d & E & B & N); [intros r c k v Ev; destruct (H r c k v Ev); lia|]. exists d. split; [exact E|]. split; [exact B|]. intros r c k Hr Hc Hk. apply N; try assumption; lia.
  - intros (r & c & k & v & Ev & Hn). apply W2. exists r, c, k, v. split; [exact Ev|]. lia.
Qed.
Print Assumptions list_tensor_partial.
(** C95: the same for the 8- and 16-bit tensors made from a list of rows. *)
Theorem row_tensor_partial : forall {A} (zero : A) encode row rest, let values := row :: rest in
  ((forall r c v, cell [values] r c 0 = Some v -> (c < List.length row)%nat) -> exists d, from_rows zero encode values = Ok d /\ box (List.length values) (List.length row) 1 d /\
     forall r c, (r < List.length values)%nat -> (c < List.length row)%nat -> cell d r c 0 = Some (match cell [values] r c 0 with Some v => encode v | None => zero end)) /\
  ((exists r c v, cell [values] r c 0 = Some v /\ (List.length row <= c)%nat) -> from_rows zero encode values = Throw).
Proof.
  intros A zero encode row rest. cbv zeta. destruct (from_rows_result zero encode row rest) as [W1 W2]. cbv zeta in W1, W2. split; [exact W1|].
  intros (r & c & v & Ev & Hn). apply W2. exists r, c, v. split; [exact Ev|]. lia.
Qed.
Print Assumptions row_tensor_partial.

(** Finding: the values 1, 2 and 3 in rows of two and one make a tensor of four values, without an error; an empty list is undefined for one kind of
    tensor and an exception for the other. *)
Theorem ragged_list_refuted :
  from_lists 0%N (fun x => x) [[[0x3F800000; 0x40000000]; [0x40400000]]]%N = Ok [[[0x3F800000; 0x40000000]; [0x40400000; 0]]]%N /\
  (forall A (zero : A) encode, from_lists zero encode [] = UB /\ from_rows zero encode [] = Throw).
Proof. split; [vm_compute; reflexivity|]. split; reflexivity. Qed.
Print Assumptions ragged_list_refuted.
Example list_ex : box 2 1 2 [[[0x3F800000]; [0x40000000]]; [[0x40400000]; [0x7FC00000]]]%N /\
  from_lists 0%N floatToHalf [[[0x3F800000]; [0x40000000]]; [[0x40400000]; [0x7FC00000]]]%N = Ok [[[0x3F80]; [0x4000]]; [[0x4040]; [0x7F81]]]%N.
Proof. split; [repeat constructor|vm_compute; reflexivity]. Qed.
