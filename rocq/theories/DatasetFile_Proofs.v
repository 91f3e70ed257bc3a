From Coq Require Import List Bool Arith NArith ZArith Lia.
From Verif Require Import Outcome PortableBytes_Model PortableBytes_Spec PortableBytes_Proofs
  TensorFile_Model TensorFile_Spec TensorFile_Proofs Lru_Model Lru_Spec Lru_Proofs DatasetFile_Model DatasetFile_Spec.
Import ListNotations.
Open Scope N_scope.

Lemma get_float_put x r : x < 2 ^ 32 -> get_float (Some (put32 x ++ r)) = Ok (x, Some r).
Proof. intro H. unfold get_float, get32. rewrite read32_put by exact H. cbn [obind fst snd]. now rewrite portable32_involutive. Qed.
Lemma get_size_put x r : x < 2 ^ 64 -> get_size (Some (put64 x ++ r)) = Ok (x, Some r).
Proof. intro H. unfold get_size, get64. rewrite read64_put by exact H. cbn [obind fst snd]. now rewrite portable64_involutive. Qed.
Lemma get_bool_put b r : get_bool (Some ([bool_byte b] ++ r)) = Ok (b, Some r).
Proof. destruct b; reflexivity. Qed.
Lemma get8_put b r : get8 (Some ([b] ++ r)) = Ok (b, Some r).
Proof. reflexivity. Qed.

Lemma get_string_put s r : N.of_nat (length s) < 2 ^ 63 -> get_string (Some (put_string s ++ r)) = Ok (s, Some r).
Proof.
  intro H. unfold get_string, put_string. rewrite <- app_assoc.
  assert (H64 : N.of_nat (length s) < 2 ^ 64) by (eapply N.lt_trans; [exact H|reflexivity]).
  rewrite get_size_put by exact H64. cbn [obind fst snd].
  assert (E : (2 ^ 63 <=? N.of_nat (length s)) = false) by now apply N.leb_gt. rewrite E, Nat2N.id, app_length.
  assert (E2 : Nat.leb (length s) (length s + length r) = true) by (apply Nat.leb_le; lia). rewrite E2.
  rewrite firstn_app, firstn_all, Nat.sub_diag, firstn_O, app_nil_r.
  rewrite skipn_app, skipn_all, Nat.sub_diag. reflexivity.
Qed.

Lemma get_many_put {A} (get : stream -> outcome (A * stream)) (put : A -> list N) l r :
  (forall x r, In x l -> get (Some (put x ++ r)) = Ok (x, Some r)) ->
  get_many (length l) get (Some (concat (map put l) ++ r)) = Ok (l, Some r).
Proof.
  induction l as [|x l IH]; intro H; [reflexivity|]. cbn [length get_many map concat]. rewrite <- app_assoc.
  rewrite H by now left. cbn [obind fst snd]. rewrite IH by (intros y r' Hy; apply H; now right). reflexivity.
Qed.

Lemma read_write_meta m r : fits m -> read_meta (Some (write_meta m ++ r)) = Ok (m, Some r).
Proof.
  intros [F1 F2 F3 F4 F5 F6 F7 F8 F9 F10 F11 F12]. unfold read_meta, write_meta. rewrite <- !app_assoc.
  rewrite get8_put. cbn [obind fst snd]. rewrite get_bool_put. cbn [obind fst snd].
  do 2 (rewrite get_float_put by assumption; cbn [obind fst snd]).
  rewrite get_bool_put. cbn [obind fst snd].
  do 2 (rewrite get_float_put by assumption; cbn [obind fst snd]).
  do 5 (rewrite get_size_put by assumption; cbn [obind fst snd]).
  rewrite Nat2N.id. rewrite get_many_put.
  - cbn [obind fst snd]. rewrite get_string_put by assumption. cbn [obind fst snd]. destruct m; reflexivity.
  - intros x r' Hx. apply get_string_put. rewrite Forall_forall in F11. now apply F11.
Qed.

Lemma get_count_put x r : x < 2 ^ 64 -> get_count (Some (put64_native x ++ r)) = Ok (x, Some r).
Proof.
  intro H. unfold get_count, put64_native.
  assert (E : load_le (store_le 8 x) = x) by (apply load_store_le; exact H).
  destruct (store_le 8 x) as [|a [|b [|c [|d [|e [|f [|g [|h [|]]]]]]]]] eqn:S; try discriminate S.
  cbn [app read64 fst snd]. now rewrite E.
Qed.

Definition header_bytes (given expected : list meta) : list N :=
  put64_native (N.of_nat (length given)) ++ concat (map write_meta given) ++
  put64_native (N.of_nat (length expected)) ++ concat (map write_meta expected).

Lemma meta_size_eq m : 4 * (rows m * columns m * channels m) < 2 ^ 64 -> meta_size m = 4 * (rows m * columns m * channels m).
Proof. intro H. unfold meta_size. rewrite N.mod_small; lia. Qed.

Lemma size_fold ms : forall acc, acc + bytes_per_row ms < 2 ^ 64 ->
  fold_left (fun acc m => (acc + meta_size m) mod 2 ^ 64) ms acc = acc + bytes_per_row ms.
Proof.
  induction ms as [|m ms IH]; intros acc H; cbn [fold_left bytes_per_row fold_right] in *; [lia|].
  fold (bytes_per_row ms) in *. set (a := rows m * columns m * channels m) in *.
  rewrite (meta_size_eq m) by (fold a; lia). fold a. rewrite (N.mod_small (acc + 4 * a)) by lia. rewrite IH by lia. lia.
Qed.

Lemma bytes_per_row_app a b : bytes_per_row (a ++ b) = bytes_per_row a + bytes_per_row b.
Proof. induction a as [|m a IH]; [reflexivity|]. cbn [app bytes_per_row fold_right]. fold (bytes_per_row (a ++ b)). fold (bytes_per_row a). rewrite IH. lia. Qed.

Lemma open_ok given expected rest :
  Forall fits given -> Forall fits expected ->
  N.of_nat (length given) < 2 ^ 64 -> N.of_nat (length expected) < 2 ^ 64 ->
  let size := bytes_per_row (given ++ expected) in
  0 < size < 2 ^ 64 -> N.of_nat (length rest) < 2 ^ 64 ->
  open_dataset (header_bytes given expected ++ rest) =
    Ok {| file := header_bytes given expected ++ rest; given_metadata := given; expected_metadata := expected;
          row_size := size; header_size := N.of_nat (length (header_bytes given expected));
          number_of_rows := N.of_nat (length rest) / size; good := true |}.
Proof.
  intros Hg He Lg Le size Hs Hr. unfold open_dataset. unfold header_bytes at 1. rewrite <- !app_assoc.
  rewrite get_count_put by exact Lg. cbn [obind fst snd]. rewrite Nat2N.id.
  rewrite get_many_put by (intros x r Hx; apply read_write_meta; rewrite Forall_forall in Hg; now apply Hg). cbn [obind fst snd].
  rewrite get_count_put by exact Le. cbn [obind fst snd]. rewrite Nat2N.id.
  rewrite get_many_put by (intros x r Hx; apply read_write_meta; rewrite Forall_forall in He; now apply He). cbn [obind fst snd]. cbv zeta.
  rewrite size_fold by (fold size; lia). fold size. rewrite N.add_0_l.
  assert (E0 : (size =? 0) = false) by (apply N.eqb_neq; lia). rewrite E0.
  set (h := header_bytes given expected). do 2 f_equal.
  - rewrite app_length. lia.
  - rewrite app_length. f_equal.
    replace (N.of_nat (length h + length rest) + 2 ^ 64 - (N.of_nat (length h + length rest) - N.of_nat (length rest)))
      with (N.of_nat (length rest) + 1 * 2 ^ 64) by lia.
    rewrite N.mod_add by discriminate. now apply N.mod_small.
Qed.

(** ** Rows *)
Definition row_body (r : row) : list N := concat (map body_bytes (fst r)) ++ concat (map body_bytes (snd r)).

Lemma omapM_save ms ts : Forall2 shaped ms ts -> omapM save_body ts = Ok (map body_bytes ts).
Proof.
  induction 1 as [|m t ms ts [Hb _] _ IH]; [reflexivity|]. cbn [omapM map]. rewrite (save_body_ok _ _ _ _ Hb), IH. reflexivity.
Qed.

Lemma row_bytes_ok given expected r : row_fits given expected r -> row_bytes r = Ok (row_body r).
Proof. intros [Hg He]. unfold row_bytes, row_body. rewrite (omapM_save _ _ Hg). cbn [obind]. rewrite (omapM_save _ _ He). reflexivity. Qed.

Lemma bodies_length ms ts : Forall2 shaped ms ts -> N.of_nat (length (concat (map body_bytes ts))) = bytes_per_row ms.
Proof.
  induction 1 as [|m t ms ts [Hb _] _ IH]; [reflexivity|]. cbn [map concat bytes_per_row fold_right]. rewrite app_length.
  fold (bytes_per_row ms). rewrite Nat2N.inj_add, IH. rewrite (body_bytes_length _ _ _ _ Hb). lia.
Qed.

Lemma row_body_length given expected r : row_fits given expected r ->
  length (row_body r) = N.to_nat (bytes_per_row (given ++ expected)).
Proof.
  intros [Hg He]. unfold row_body. rewrite app_length, bytes_per_row_app.
  rewrite <- (bodies_length _ _ Hg), <- (bodies_length _ _ He). lia.
Qed.

Lemma map3_id {A} (t : cube A) : map3 (fun x => x) t = t.
Proof. unfold map3. rewrite <- (map_id t) at 2. apply map_ext. intro a. rewrite <- (map_id a) at 2. apply map_ext. intro b. apply map_id. Qed.

Lemma load_column_ok to_pixel m t rest : shaped m t -> load_column to_pixel m (body_bytes t ++ rest) = Ok (in_memory to_pixel m t, rest).
Proof.
  intros [Hb Hv]. unfold load_column, in_memory, purpose_image, purpose_label.
  pose proof (fun A (st : N -> A) => load_body_ok st _ _ _ t rest Hb Hv) as L. rewrite !N2Nat.id in L.
  destruct (purpose m =? 73); [rewrite L; reflexivity|]. destruct (purpose m =? 76); [rewrite L; reflexivity|].
  rewrite L. cbn [obind fst snd]. unfold store_full. now rewrite map3_id.
Qed.

Lemma load_columns_ok to_pixel ren off ms ts rest : Forall2 shaped ms ts ->
  load_columns to_pixel ren off [] ms (concat (map body_bytes ts) ++ rest) = Ok (zip_with (in_memory to_pixel) ms ts, rest).
Proof.
  induction 1 as [|m t ms ts Hs _ IH]; [reflexivity|]. cbn [map concat load_columns]. rewrite <- app_assoc.
  rewrite (load_column_ok _ _ _ _ Hs). cbn [obind fst snd]. rewrite IH. reflexivity.
Qed.

Lemma load_columns_renorm to_pixel ren other others ms ts rest : Forall2 shaped ms ts ->
  load_columns to_pixel ren 0 (other :: others) ms (concat (map body_bytes ts) ++ rest) =
    Ok (zip_with (fun m t => ren (in_memory to_pixel m t) m other) ms ts, rest).
Proof.
  induction 1 as [|m t ms ts Hs _ IH]; [reflexivity|]. cbn [map concat load_columns]. rewrite <- app_assoc.
  rewrite (load_column_ok _ _ _ _ Hs). cbn [obind fst snd vec_at nth_error]. rewrite IH. reflexivity.
Qed.

Lemma skip_rows given expected rs i rest : Forall (row_fits given expected) rs -> (i < length rs)%nat ->
  exists r, nth_error rs i = Some r /\ row_fits given expected r /\
  forall k, (k <= length (concat (map row_body rs)))%nat ->
    (S i * N.to_nat (bytes_per_row (given ++ expected)) <= k)%nat ->
    exists tl, skipn (i * N.to_nat (bytes_per_row (given ++ expected))) (firstn k (concat (map row_body rs)) ++ rest) = row_body r ++ tl.
Proof.
  set (sz := N.to_nat (bytes_per_row (given ++ expected))).
  intros Hf. revert i. induction Hf as [|x rs Hx Hf IH]; intros i Hi; [cbn in Hi; lia|].
  pose proof (row_body_length _ _ _ Hx) as L. fold sz in L.
  destruct i as [|i].
  - exists x. split; [reflexivity|]. split; [exact Hx|]. intros k Hk1 Hk2. cbn [Nat.mul skipn map concat] in *. rewrite Nat.add_0_r in Hk2.
    rewrite firstn_app, L. rewrite (firstn_all2 (row_body x)) by lia. rewrite <- app_assoc. eexists. reflexivity.
  - destruct (IH i) as (r & E & Hr & H); [cbn in Hi; lia|]. exists r. split; [exact E|]. split; [exact Hr|].
    intros k Hk1 Hk2. cbn [map concat] in *. rewrite app_length, L in Hk1.
    rewrite firstn_app, L. rewrite (firstn_all2 (row_body x)) by lia.
    destruct (H (k - sz)%nat) as (tl & Ht); [lia|lia|]. exists tl. rewrite <- Ht. rewrite <- app_assoc.
    replace (S i * sz)%nat with (length (row_body x) + i * sz)%nat by (rewrite L; lia).
    rewrite skipn_app. rewrite skipn_all2 by lia. cbn [app]. f_equal. lia.
Qed.

Lemma read_cut given expected rs k to_pixel ren :
  Forall fits given -> Forall fits expected ->
  N.of_nat (length given) < 2 ^ 64 -> N.of_nat (length expected) < 2 ^ 64 ->
  Forall (row_fits given expected) rs ->
  let size := bytes_per_row (given ++ expected) in
  0 < size < 2 ^ 64 -> N.of_nat (length (concat (map row_body rs))) < 2 ^ 64 -> (k <= length (concat (map row_body rs)))%nat ->
  exists d, open_dataset (header_bytes given expected ++ firstn k (concat (map row_body rs))) = Ok d /\
    given_metadata d = given /\ expected_metadata d = expected /\ number_of_rows d = N.of_nat k / size /\
    (forall i, N.of_nat k / size <= i -> read_row to_pixel ren [] [] d i = Throw) /\
    (forall i r, N.of_nat i < N.of_nat k / size -> nth_error rs i = Some r ->
       read_row to_pixel ren [] [] d (N.of_nat i) =
         Ok (zip_with (in_memory to_pixel) given (fst r), zip_with (in_memory to_pixel) expected (snd r))).
Proof.
  intros Hg He Lg Le Hf size Hs Htot Hk. set (body := concat (map row_body rs)) in *.
  assert (Lk : length (firstn k body) = k) by (rewrite firstn_length; lia).
  rewrite (open_ok given expected (firstn k body)) by (assumption || (rewrite Lk; lia)). eexists. split; [reflexivity|].
  cbn [given_metadata expected_metadata number_of_rows]. rewrite Lk. fold size. split; [reflexivity|]. split; [reflexivity|]. split; [reflexivity|].
  split.
  - intros i Hi. unfold read_row. cbn [number_of_rows]. apply N.leb_le in Hi. now rewrite Hi.
  - intros i r Hi Hn. unfold read_row. cbn [number_of_rows good file header_size row_size given_metadata expected_metadata negb].
    assert (E : (N.of_nat k / size <=? N.of_nat i) = false) by now apply N.leb_gt. rewrite E. clear E.
    assert (Hil : (i < length rs)%nat) by (apply nth_error_Some; congruence).
    destruct (skip_rows given expected rs i [] Hf Hil) as (r' & Er & Hr & H). rewrite Hn in Er. injection Er as <-.
    assert (Hki : (S i * N.to_nat size <= k)%nat).
    { assert (X : (N.of_nat i + 1) * size <= N.of_nat k).
      { transitivity (size * (N.of_nat k / size)); [|apply N.mul_div_le; lia]. rewrite N.mul_comm. apply N.mul_le_mono_l. lia. }
      nia. }
    destruct (H k Hk Hki) as (tl & Ht). fold size in Ht. rewrite app_nil_r in Ht. fold body in Ht.
    replace (N.to_nat (N.of_nat (length (header_bytes given expected)) + N.of_nat i * size))
      with (length (header_bytes given expected) + i * N.to_nat size)%nat by lia.
    rewrite skipn_app. rewrite skipn_all2 by lia. cbn [app].
    replace (length (header_bytes given expected) + i * N.to_nat size - length (header_bytes given expected))%nat with (i * N.to_nat size)%nat by lia.
    rewrite Ht. unfold row_body. rewrite <- app_assoc. destruct Hr as [Hr1 Hr2].
    rewrite (load_columns_ok _ _ _ _ _ _ Hr1). cbn [obind fst snd].
    rewrite (load_columns_ok _ _ _ _ _ _ Hr2). reflexivity.
Qed.

(** ** Writing *)
Lemma write_header_ok given expected : given <> [] -> write_header given expected = Ok (header_bytes given expected).
Proof. destruct given; [congruence|reflexivity]. Qed.

Lemma write_rows_none hp given expected rs : Forall (row_fits given expected) rs ->
  write_rows hp None rs = Ok (concat (map row_body rs), map (fun _ => true) rs).
Proof.
  induction 1 as [|r rs Hr _ IH]; [reflexivity|]. cbn [write_rows write_row]. rewrite (row_bytes_ok _ _ _ Hr). cbn [obind fst snd].
  rewrite IH. reflexivity.
Qed.

Lemma write_rows_some hp given expected c rs : (0 < c)%nat -> Forall (row_fits given expected) rs ->
  forall recent s, holds c recent s ->
  let flags := fresh_flags c recent (map (fun r => compute_given_hash hp (fst r)) rs) in
  write_rows hp (Some s) rs = Ok (concat (map row_body (chosen flags rs)), flags).
Proof.
  intros Hc. induction 1 as [|r rs Hr _ IH]; intros recent s Hs flags; [reflexivity|].
  subst flags. cbn [write_rows write_row map fresh_flags].
  destruct (touch_holds c recent s (compute_given_hash hp (fst r)) Hc Hs) as (s' & E & Hs').
  rewrite E. cbn [obind fst snd].
  destruct (in_dec N.eq_dec (compute_given_hash hp (fst r)) (firstn c recent)) as [Hin|Hin].
  - cbn [obind fst snd]. rewrite (IH _ _ Hs'). reflexivity.
  - rewrite (row_bytes_ok _ _ _ Hr). cbn [obind fst snd]. rewrite (IH _ _ Hs'). reflexivity.
Qed.
