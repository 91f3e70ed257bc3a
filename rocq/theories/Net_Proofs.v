(** Proofs about the layers of one vertex: shapes. *)
From Coq Require Import List Arith Bool NArith Reals Lia Lra.
From Verif Require Import Outcome Tensor_Model Tensor_Spec Reduce_Model Activation_Model Layer_Model ConvLayer_Model Graph_Model Net_Model Net_Spec.
From Verif Require Import MatMul_Proofs Conv_Proofs Layer_Spec Layer_Proofs Activation_Proofs Reduce_Spec Reduce_Proofs.
From Verif Require ModelFile_Model Loss_Model.
Import ListNotations.
Local Open Scope nat_scope.

Lemma shaped_transform : forall g t s, shaped t s -> shaped (value_transform g t) s.
Proof. intros g t [[r c] k] [f H]. eexists. eapply transform_tensor. exact H. Qed.
Lemma shaped_scale : forall t a s, shaped t s -> shaped (scalar_multiply rops t a) s.
Proof. intros t a [[r c] k] [f H]. eexists. eapply scale_tensor. exact H. Qed.
Lemma shaped_pointwise : forall h a b s, shaped a s -> shaped b s -> exists u, pointwise h a b = Ok u /\ shaped u s.
Proof. intros h a b [[r c] k] [f H] [g G]. destruct (pointwise_element h a b r c k f g H G) as (u & E & U). exists u. split; [exact E|]. eexists. exact U. Qed.
Lemma shaped_materialize : forall t s, shaped t s -> exists u, materialize t = Ok u /\ shaped u s.
Proof. intros t [[r c] k] [f H]. destruct (materialize_tensor t r c k f H) as (u & E & U). exists u. split; [exact E|]. eexists. exact U. Qed.
Lemma shaped_uniform : forall r c k x, shaped (uniform r c k x) (r, c, k).
Proof. intros r c k x. eexists. apply uniform_tensor. Qed.
Lemma shaped_rows : forall t r c k, shaped t (r, c, k) -> rows t = r /\ cols t = c /\ chans t = k.
Proof. intros t r c k [f (A & B & C & _)]. auto. Qed.
Lemma shaped_add : forall a b s, shaped a s -> shaped b s -> shaped (add_errors a b) s.
Proof. intros a b s A B. unfold add_errors, add_view. destruct (shaped_pointwise (add rops) a b s A B) as (u & -> & U). exact U. Qed.
Lemma shaped_divide : forall a n s, shaped a s -> shaped (divide_error a n) s.
Proof. intros a n s A. apply shaped_transform. exact A. Qed.
Lemma shaped_norm : forall t s, shaped t s -> exists n, euclidean_norm t = Ok n.
Proof.
  intros t [[r c] k] [f H]. unfold euclidean_norm, max_abs. rewrite (scan_fold t r c k f (fun result v => if Rgt_bool (Rabs v) result then Rabs v else result) _ _ H) by reflexivity. cbn [obind].
  match goal with |- context [fold_left ?st ?l ?z] => set (m := fold_left st l z) end.
  rewrite (scan_fold t r c k f (fun sum v => match sum with None => None | Some sum => if Req_EM_T m 0 then None else Some (sum + (v / m) * (v / m))%R end) _ _ H) by reflexivity.
  cbn [obind]. eexists. reflexivity.
Qed.
Lemma shaped_flatten : forall t r c k, shaped t (r, c, k) -> shaped (row_flatten t) (1, r * c * k, 1).
Proof.
  intros t r c k [f H]. exists (fun _ j _ => nth j (elements r c k f) 0%R). split; [reflexivity|]. split; [cbn; unfold size; destruct H as (-> & -> & -> & _); reflexivity|]. split; [reflexivity|].
  intros i j l Hi Hj Hl. replace i with 0 by lia. replace l with 0 by lia. cbn. apply (flat_nth t r c k f 0%R j H). exact Hj.
Qed.
Lemma shaped_reshape : forall t r c, shaped t (1, r * c, 1) -> exists u, reshape t r c = Ok u /\ shaped u (r, c, 1).
Proof.
  intros t r c [f H]. destruct H as (H1 & H2 & H3 & H4). unfold reshape, elementsPerChannel. rewrite H1, H2. replace (1 * (r * c)) with (r * c) by lia. rewrite Nat.eqb_refl. eexists. split; [reflexivity|].
  exists (fun i j _ => f 0 (i * c + j) 0). split; [reflexivity|]. split; [reflexivity|]. split; [exact H3|]. intros i j l Hi Hj Hl. cbn. unfold flat. rewrite H1, H2. replace l with 0 by lia.
  assert (B : i * c + j < r * c) by nia. replace (r * c * 1) with (r * c) by lia. destruct (Nat.eqb_spec (r * c) 0); [lia|]. replace (0 * (r * c)) with 0 by lia. rewrite Nat.add_0_r.
  rewrite (Nat.mod_small (i * c + j)) by exact B. rewrite (Nat.div_small (i * c + j) (r * c)) by exact B. try rewrite Nat.mod_small by exact B. apply H4; lia.
Qed.

(** The shape a single layer gives. *)
Definition layer_shape (v : vertex) (l : layer) (ss : list shape) : option shape :=
  match l, ss with
  | Flatten, [s] => Some (flattened s)
  | Full, [(r, c, k)] => if (c =? volume (input_shape v)) && (k =? 1) then Some (r, volume (output_shape v), 1) else None
  | Concat, (r, _, k) :: _ :: _ => if forallb (fun '(r', _, k') => (r' =? r) && (k' =? k)) ss then Some (r, total_width ss, k) else None
  | Normalize, [s] => Some s
  | Dropout, [s] => Some s
  | Conv, [(r, c, k)] => if (k =? snd (input_shape v)) && (1 <=? k) && (1 <=? filters_of v) && (kernel v <=? r) && (kernel v <=? c)
                         then Some (r + 1 - kernel v, c + 1 - kernel v, filters_of v) else None
  | Bias, [s] => if shape_eqb s (output_shape v) then Some s else None
  | Activate, [s] => Some s
  | _, _ => None
  end.
Definition layer_fit (v : vertex) (p : params) (l : layer) : Prop :=
  match l with
  | Full => shaped (weights p) (volume (input_shape v), volume (output_shape v), 1)
  | Conv => length (kernels p) = filters_of v /\ Forall (fun w => shaped w (kernel v, kernel v, snd (input_shape v))) (kernels p)
  | Bias => shaped (biases p) (output_shape v)
  | _ => True
  end.
Lemma shape_eqb_eq : forall a b, shape_eqb a b = true <-> a = b.
Proof.
  intros [[a1 a2] a3] [[b1 b2] b3]. unfold shape_eqb. rewrite !andb_true_iff, !Nat.eqb_eq. split; [intros ((-> & ->) & ->); reflexivity|]. intros E. injection E as -> -> ->. auto.
Qed.
Ltac one H := let x := fresh "x" in let y := fresh "s" in let A := fresh in
  inversion H as [|x y ? ? ? A]; subst; inversion A; subst; clear A.

Lemma parts_of : forall (xs : list T) ss r k, Forall2 shaped xs ss -> (forall s, In s ss -> fst (fst s) = r /\ snd s = k) ->
  exists parts : list (nat * (nat -> nat -> nat -> R)), Forall2 (fun t p => is_tensor t r (fst p) k (snd p)) xs parts /\ map fst parts = map (fun s => snd (fst s)) ss.
Proof.
  intros xs ss r k H. induction H as [|x [[a c] b] xs ss [f F] H IH]; intros A; [exists []; now split|]. destruct IH as (parts & P1 & P2); [intros; apply A; now right|].
  destruct (A (a, c, b) (or_introl eq_refl)) as [X1 X2]. cbn in X1, X2. subst a b. exists ((c, f) :: parts). split; [now constructor|]. cbn. now rewrite P2.
Qed.
Lemma width_total : forall (parts : list (nat * (nat -> nat -> nat -> R))) ss, map fst parts = map (fun s : shape => snd (fst s)) ss -> width parts = total_width ss.
Proof.
  intros parts. induction parts as [|p parts IH]; intros [|s ss] E; try discriminate; [reflexivity|]. rewrite width_cons. cbn in E. injection E as E1 E2. cbn [total_width fold_right]. fold (total_width ss). rewrite (IH ss E2). now rewrite E1.
Qed.
Lemma parts_length : forall (xs : list T) (parts : list (nat * (nat -> nat -> nat -> R))) r k, Forall2 (fun t p => is_tensor t r (fst p) k (snd p)) xs parts -> length parts = length xs.
Proof. intros xs parts r k H. induction H; cbn; congruence. Qed.
Lemma Forall2_len : forall {A B} (P : A -> B -> Prop) l m, Forall2 P l m -> length l = length m.
Proof. intros A B P l m H. induction H; cbn; congruence. Qed.
Lemma same_rows : forall (ss : list shape) r k, forallb (fun '(r', _, k') => (r' =? r) && (k' =? k)) ss = true -> forall s, In s ss -> fst (fst s) = r /\ snd s = k.
Proof. intros ss r k H s Hs. rewrite forallb_forall in H. specialize (H s Hs). destruct s as [[a b] c]. cbn. rewrite andb_true_iff, !Nat.eqb_eq in H. exact H. Qed.

Lemma activate_shaped : forall a x s, shaped x s -> exists y, activate a x = Ok y /\ shaped y s.
Proof.
  intros a x [[r c] k] [f H]. assert (S1 : shaped x (r, c, k)) by (exists f; exact H).
  destruct a; cbn [activate]; try (eexists; split; [reflexivity|]; first [exact S1|now apply shaped_transform]).
  destruct (softmax_tensor x r c k f H) as (u & E & U). exists u. split; [exact E|]. eexists. exact U.
Qed.
Lemma derivative_shaped : forall a x s, shaped x s -> shaped (derivative a x) s.
Proof.
  intros a x [[r c] k] S1. destruct a; cbn [derivative]; try exact S1; try now apply shaped_transform. apply shaped_rows in S1 as (<- & <- & <-). unfold uniform_like. eexists. repeat split.
Qed.
Lemma dropout_mask_shaped : forall rate random x s, shaped x s -> exists y m, dropout_train rate random x = Ok (y, m) /\ shaped y s /\ shaped m s.
Proof.
  intros rate random x [[r c] k] S1. pose proof (shaped_rows _ _ _ _ S1) as (E1 & E2 & E3). unfold dropout_train. cbv zeta.
  match goal with |- context [multiply_view rops x ?mk] => set (mask := mk) end.
  assert (M : shaped mask (r, c, k)).
  { subst mask. exists (fun i j l => if Rgt_bool (random i j l) rate then 1%R else 1%R). rewrite E1, E2, E3. unfold masked_select, trinary. repeat split. intros i j l _ _ _. cbn. destruct (Rgt_bool _ _); reflexivity. }
  destruct (shaped_pointwise (mul rops) x mask _ S1 M) as (u & E & U). unfold multiply_view. rewrite E. cbn [obind]. eexists. eexists. split; [reflexivity|]. now split.
Qed.
Lemma body_ext : forall {St} n i (body body' : nat -> St -> outcome St) s, (forall j s, body j s = body' j s) -> loop n i body s = loop n i body' s.
Proof. intros St n. induction n as [|n IH]; intros i body body' s H; [reflexivity|]. cbn [loop]. rewrite H. destruct (body' i s); cbn [obind]; auto. Qed.
Lemma normalization_shaped : forall x s, shaped x s -> exists y mean dev, normalization_forward [x] = Ok (y, (mean, dev)) /\ shaped y s.
Proof.
  intros x [[r c] k] [f H]. cbn [normalization_forward]. unfold standardize_parameters.
  set (step := fun (s : R * R) value => let delta := (value - fst s)%R in let mean := (fst s + delta / INR (size x))%R in (mean, (snd s + delta * (value - mean))%R)).
  assert (L : loop (size x) 0 (fun element '(mean, M2) => do value <- flat x element; let delta := (value - mean)%R in let mean := (mean + delta / INR (size x))%R in let delta2 := (value - mean)%R in Ok (mean, (M2 + delta * delta2)%R)) (0%R, 0%R)
     = Ok (fold_left step (elements r c k f) (0%R, 0%R))).
  { rewrite <- (loop_flat x r c k f step (fun s value => Ok (step s value)) (0%R, 0%R) H) by reflexivity. apply body_ext. intros j [m M2]. reflexivity. }
  cbv zeta in L |- *. rewrite L. cbn [obind]. destruct (fold_left _ _ _) as [mean M2]. cbn [obind]. do 3 eexists. split; [reflexivity|]. apply shaped_transform. exists f. exact H.
Qed.
Lemma normalization_back_shaped : forall y mean dev e s, shaped y s -> shaped e s -> exists u, normalization_backward (Some (y, (mean, dev))) e = Ok u /\ shaped u s.
Proof.
  intros y mean dev e [[r c] k] [f Y] [g G]. cbn [normalization_backward]. eexists. split; [reflexivity|]. destruct Y as (Y1 & Y2 & Y3 & Y4), G as (G1 & G2 & G3 & G4).
  unfold standardize_derivative, shaped, is_tensor. cbn [rows cols chans get]. rewrite G1, G2, G3.
  eexists (fun i j l => _). split; [reflexivity|]. split; [reflexivity|]. split; [reflexivity|]. intros i j l Hi Hj Hl. rewrite G4, Y4 by assumption. cbn [obind]. cbv zeta. reflexivity.
Qed.

Lemma layer_forward_ok : forall v p random training l xs ss s, Forall2 shaped xs ss -> layer_shape v l ss = Some s -> layer_fit v p l ->
  exists y, layer_forward v p random training l xs = Ok y /\ shaped y s.
Proof.
  intros v p random training l xs ss s H E F. destruct l; cbn [layer_shape layer_fit layer_forward] in *.
  - destruct ss as [|s0 [|]]; try discriminate. one H. cbn [flatten_forward obind fst]. injection E as <-. destruct s0 as [[r c] k]. match goal with X : shaped _ _ |- _ => rename X into S1 end.
    pose proof (shaped_rows _ _ _ _ S1) as (E1 & _). unfold flattened. rewrite E1. eexists. split; [reflexivity|]. destruct (Nat.eqb_spec r 1); [exact S1|]. now apply shaped_flatten.
  - destruct ss as [|[[r c] k] [|]]; try discriminate. one H. match goal with X : shaped x _ |- _ => rename X into S1 end.
    destruct (Nat.eqb_spec c (volume (input_shape v))) as [Ec|]; [|discriminate]. destruct (Nat.eqb_spec k 1) as [Ek|]; [|discriminate]. cbn [andb] in E. injection E as <-. subst c k.
    destruct S1 as [f S1], F as [w F]. destruct (multiply_element rops x (weights p) _ _ _ _ _ _ S1 F) as (u & Eu & U). cbn [fc_forward]. destruct training; cbn [fc_weights new_fc]; rewrite Eu; cbn [obind snd]; (eexists; split; [reflexivity|]; eexists; exact U).
  - destruct ss as [|[[r c] k] [|s1 ss]]; try discriminate. destruct (forallb _ _) eqn:Ea in E; [|discriminate]. injection E as <-.
    destruct (parts_of xs _ r k H (same_rows _ _ _ Ea)) as (parts & P1 & P2). destruct (concat_forward_ok r k parts xs) as (u & Eu & U).
    + rewrite (parts_length _ _ _ _ P1), (Forall2_len _ _ _ H). cbn. lia.
    + exact P1.
    + exists u. split; [exact Eu|]. rewrite (width_total _ _ P2) in U. eexists. exact U.
  - destruct ss as [|s0 [|]]; try discriminate. one H. injection E as <-. destruct (normalization_shaped x s0) as (y & m & dv & En & Y); [assumption|]. rewrite En. cbn [obind fst]. now exists y.
  - destruct ss as [|s0 [|]]; try discriminate. one H. injection E as <-. destruct training.
    + destruct (dropout_mask_shaped (ModelFile_Model.dropout_rate v) random x s0) as (y & m & Ed & Y & _); [assumption|]. rewrite Ed. cbn [obind fst]. now exists y.
    + unfold dropout_predict, multiply_view. destruct s0 as [[r c] k]. match goal with X : shaped x _ |- _ => rename X into S1 end. pose proof (shaped_rows _ _ _ _ S1) as (-> & -> & ->). apply shaped_pointwise; [exact S1|apply shaped_uniform].
  - destruct ss as [|[[r c] k] [|]]; try discriminate. one H. match goal with X : shaped x _ |- _ => rename X into S1 end. destruct (_ && _) eqn:Ea in E; [|discriminate]. injection E as <-.
    rewrite !andb_true_iff, Nat.eqb_eq, !Nat.leb_le in Ea. destruct Ea as ((((E1 & E2) & E3) & E4) & E5). destruct F as [F1 F2]. subst k. destruct S1 as [f S1].
    assert (W : exists g, forall l, l < filters_of v -> is_tensor (nth l (kernels p) x) (kernel v) (kernel v) (snd (input_shape v)) (g l)).
    { rewrite <- F1. clear - F2. induction F2 as [|w ws [f F] _ [g G]]; [exists (fun _ _ _ _ => 0%R); intros l Hl; cbn in Hl; lia|]. exists (fun l => match l with O => f | S l => g l end). intros [|l] Hl; [exact F|]. apply G. cbn in Hl. lia. }
    destruct W as [g G]. unfold filter_count, depth. fold (filters_of v).
    destruct (conv_forward_element rops Ropp rring (kernels p) x r c (kernel v) (snd (input_shape v)) (filters_of v) f g E2 E3 E4 E5 S1 F1 G) as (u & Eu & U).
    exists u. split; [exact Eu|]. eexists. exact U.
  - destruct ss as [|s0 [|]]; try discriminate. one H. destruct (shape_eqb s0 _) eqn:Ea in E; [|discriminate]. injection E as <-. apply shape_eqb_eq in Ea. subst s0. cbn [bias_forward new_bias bias_values]. unfold add_view. now apply shaped_pointwise.
  - destruct ss as [|s0 [|]]; try discriminate. one H. injection E as <-. now apply activate_shaped.
Qed.

(** ** Backward *)
Definition layer_sends (v : vertex) (head : bool) (l : layer) (ss : list shape) : Prop :=
  match l with
  | Flatten => Forall one_row_or_channel ss
  | Concat => map nat_shape (ModelFile_Model.inputShapes v) = ss /\ Forall (fun s => 0 < snd (fst s)) ss
  | Conv => ss = [input_shape v] /\ 1 <= kernel v <= 3 /\ (head = true \/ snd (input_shape v) = 1)
  | _ => True
  end.
Definition layer_changes (v : vertex) (l : layer) : list shape * list shape :=
  match l with
  | Full => ([(volume (input_shape v), volume (output_shape v), 1)], [])
  | Conv => (repeat (kernel v, kernel v, snd (input_shape v)) (filters_of v), [])
  | Bias => ([], [output_shape v])
  | _ => ([], [])
  end.
Definition some_shape (x : T) : Prop := exists s, shaped x s.
Lemma some_shapes : forall es ss, Forall2 shaped es ss -> Forall some_shape es.
Proof. intros es ss H. induction H as [|e s es ss E H IH]; constructor; [now exists s|exact IH]. Qed.
Lemma single : forall (e : T) s, shaped e s -> Forall2 shaped [e] [s].
Proof. intros e s H. constructor; [exact H|constructor]. Qed.

Lemma layer_backward_ok : forall v p random head l xs ss s e, Forall2 shaped xs ss -> layer_shape v l ss = Some s -> layer_fit v p l -> layer_sends v head l ss -> shaped e s ->
  exists es dW dB, layer_backward v p random l xs e = Ok (es, (dW, dB)) /\ Forall2 shaped dW (fst (layer_changes v l)) /\ Forall2 shaped dB (snd (layer_changes v l)) /\
    length es = length ss /\ Forall some_shape es /\ (head = false -> Forall2 shaped es ss).
Proof.
  intros v p random head l xs ss s e H E F SB HE.
  assert (K : forall es dW dB, layer_backward v p random l xs e = Ok (es, (dW, dB)) -> Forall2 shaped dW (fst (layer_changes v l)) -> Forall2 shaped dB (snd (layer_changes v l)) -> Forall2 shaped es ss ->
    exists es dW dB, layer_backward v p random l xs e = Ok (es, (dW, dB)) /\ Forall2 shaped dW (fst (layer_changes v l)) /\ Forall2 shaped dB (snd (layer_changes v l)) /\
    length es = length ss /\ Forall some_shape es /\ (head = false -> Forall2 shaped es ss)).
  { intros es dW dB K1 K2 K3 K4. exists es, dW, dB. repeat (split; [assumption|]). split; [eapply Forall2_len; exact K4|]. split; [eapply some_shapes; exact K4|auto]. }
  destruct l; cbn [layer_shape layer_fit layer_backward layer_sends layer_changes fst snd] in *.
  - destruct ss as [|[[r c] k] [|]]; try discriminate. one H. injection E as <-. match goal with X : shaped x _ |- _ => rename X into S1 end. pose proof (shaped_rows _ _ _ _ S1) as (E1 & E2 & E3).
    assert (D : exists u, flatten_backward (rows x, cols x) e = Ok u /\ shaped u (r, c, k)).
    { unfold flattened in HE. unfold flatten_backward. rewrite E1, E2. inversion SB as [|? ? Q _]; subst. cbn in Q. destruct (Nat.eqb_spec (rows x) 1) as [Er|Er].
      - pose proof (shaped_rows _ _ _ _ HE) as (-> & -> & _). rewrite !Nat.eqb_refl. cbn [andb]. exists e. now split.
      - pose proof (shaped_rows _ _ _ _ HE) as (R1 & _). rewrite R1. destruct (Nat.eqb_spec (rows x) 1) as [|_]; [contradiction|]. cbn [andb]. destruct Q as [Q|Q]; [contradiction|]. rewrite Q in HE |- *. rewrite Nat.mul_1_r in HE. now apply shaped_reshape. }
    destruct D as (u & Eu & U). cbn [flatten_forward obind snd] in K |- *. rewrite Eu in K |- *. cbn [obind] in K |- *. eapply K; [reflexivity|constructor|constructor|]. now apply single.
  - destruct ss as [|[[r c] k] [|]]; try discriminate. one H. match goal with X : shaped x _ |- _ => rename X into S1 end.
    destruct (Nat.eqb_spec c (volume (input_shape v))) as [Ec|]; [|discriminate]. destruct (Nat.eqb_spec k 1) as [Ek|]; [|discriminate]. cbn [andb] in E. injection E as <-. subst c k.
    destruct S1 as [f S1], F as [w F], HE as [ep HE]. destruct (fc_record (new_fc v p) x e r (volume (input_shape v)) (volume (output_shape v)) 1 w f ep) as (s1 & y & back & we & A1 & A2 & A3 & A4 & A5); try assumption; [reflexivity|].
    rewrite A1 in K |- *. cbn [obind fst] in K |- *. rewrite A3 in K |- *. cbn [obind fst snd weights_errors new_fc app] in K |- *. eapply K; [reflexivity|apply single; eexists; apply A5|constructor|]. apply single. eexists. exact A4.
  - destruct ss as [|[[r c] k] [|s1 ss]]; try discriminate. destruct (forallb _ _) eqn:Ea in E; [|discriminate]. injection E as <-. destruct SB as [SB1 SB2]. destruct HE as [ep HE].
    destruct (parts_of xs _ r k H (same_rows _ _ _ Ea)) as (parts & P1 & P2). pose proof (width_total _ _ P2) as P3.
    assert (P4 : map nat_shape (ModelFile_Model.inputShapes v) = map (fun p => (r, fst p, k)) parts).
    { rewrite SB1. pose proof (same_rows _ _ _ Ea) as Q. clear - P2 Q. revert P2 Q. generalize ((r, c, k) :: s1 :: ss). intros l. revert parts. induction l as [|s l IH]; intros [|q parts] P2 Q; try discriminate; [reflexivity|].
      cbn in P2. injection P2 as P2 P3. cbn [map]. rewrite <- (IH parts P3) by (intros; apply Q; now right). f_equal. destruct (Q s (or_introl eq_refl)) as [<- <-]. rewrite P2. now destruct s as [[? ?] ?]. }
    destruct (concat_backward_ok r k parts 0 e (total_width ((r, c, k) :: s1 :: ss)) ep) as (bs & errs & B1 & B2 & B3 & _).
    + exact HE.
    + rewrite <- P3. lia.
    + rewrite Forall_forall in *. intros q Hq. apply (in_map fst) in Hq. rewrite P2 in Hq. apply in_map_iff in Hq as (s0 & <- & Hs). now apply SB2.
    + rewrite P4 in K |- *. rewrite B1 in K |- *. cbn [obind] in K |- *. eapply K; [reflexivity|constructor|constructor|]. rewrite <- SB1, P4. clear - B2 B3. revert parts B3. induction B2 as [|b q bs errs B B2 IH]; intros [|z parts] E; try discriminate; [constructor|]. cbn in E. injection E as E1 E2. cbn [map]. constructor; [|now apply IH]. rewrite <- E1. eexists. exact B.
  - destruct ss as [|s0 [|]]; try discriminate. one H. injection E as <-. destruct (normalization_shaped x s0) as (y & m & dv & En & Y); [assumption|]. rewrite En in K |- *. cbn [obind] in K |- *.
    destruct (normalization_back_shaped y m dv e s0 Y HE) as (u & Eu & U). rewrite Eu in K |- *. cbn [obind] in K |- *. eapply K; [reflexivity|constructor|constructor|]. now apply single.
  - destruct ss as [|s0 [|]]; try discriminate. one H. injection E as <-. destruct (dropout_mask_shaped (ModelFile_Model.dropout_rate v) random x s0) as (y & m & Ed & Y & M); [assumption|]. rewrite Ed in K |- *. cbn [obind snd dropout_backward] in K |- *.
    destruct (shaped_pointwise (mul rops) e m s0 HE M) as (u & Eu & U). unfold multiply_view in *. rewrite Eu in K |- *. cbn [obind] in K |- *. eapply K; [reflexivity|constructor|constructor|]. now apply single.
  - destruct ss as [|[[r c] k] [|]]; try discriminate. one H. match goal with X : shaped x _ |- _ => rename X into S1 end. destruct (_ && _) eqn:Ea in E; [|discriminate]. injection E as <-. clear K.
    rewrite !andb_true_iff, Nat.eqb_eq, !Nat.leb_le in Ea. destruct Ea as ((((E1 & E2) & E3) & E4) & E5). destruct F as [F1 F2]. destruct SB as (SB1 & SB2 & SB3). destruct S1 as [f S1], HE as [ep HE].
    assert (W : exists g, forall l, l < filters_of v -> is_tensor (nth l (kernels p) x) (kernel v) (kernel v) (snd (input_shape v)) (g l)).
    { rewrite <- F1. clear - F2. induction F2 as [|w ws [f F] _ [g G]]; [exists (fun _ _ _ _ => 0%R); intros l Hl; cbn in Hl; lia|]. exists (fun l => match l with O => f | S l => g l end). intros [|l] Hl; [exact F|]. apply G. cbn in Hl. lia. }
    destruct W as [g G]. injection SB1 as SB1. rewrite <- SB1 in *. cbn [snd] in *. unfold filter_count. fold (filters_of v).
    destruct (conv_backward_element rops Ropp rring (kernels p) x e r c (kernel v) k (filters_of v) (strength v) f g ep SB2 E4 E5 S1 F1 G HE) as (u & ch & A1 & A2 & A3 & A4).
    rewrite A1. cbn [obind fst snd]. exists [u], ch, []. split; [reflexivity|]. split.
    { clear - A3 A4. assert (Z : forall i, i < length ch -> shaped (nth i ch x) (kernel v, kernel v, k)) by (intros i Hi; eexists; apply A4; lia). rewrite <- A3. clear A3 A4. induction ch as [|w ch IH]; [constructor|]. cbn [length repeat]. constructor; [apply (Z 0); cbn; lia|]. apply IH. intros i Hi. apply (Z (S i)). cbn. lia. }
    split; [constructor|]. split; [reflexivity|]. split; [constructor; [|constructor]; exists (r, c, 1); eexists; exact A2|]. intros ->. destruct SB3 as [? | ->]; [discriminate|]. apply single. eexists. exact A2.
  - destruct ss as [|s0 [|]]; try discriminate. one H. destruct (shape_eqb s0 _) eqn:Ea in E; [|discriminate]. injection E as <-. apply shape_eqb_eq in Ea. subst s0. cbn [bias_backward fst snd bias_errors new_bias app] in K |- *. eapply K; [reflexivity|constructor|apply single; exact HE|apply single; exact HE].
  - destruct ss as [|s0 [|]]; try discriminate. one H. injection E as <-. cbn [activation_backward fold_left obind] in K |- *. match goal with X : shaped x _ |- _ => rename X into S1 end.
    destruct (shaped_pointwise (mul rops) _ _ s0 (derivative_shaped (activation_of (ModelFile_Model.activation_type v)) x s0 S1) HE) as (u & Eu & U). unfold multiply_view in *. rewrite Eu in K |- *. cbn [obind] in K |- *. eapply K; [reflexivity|constructor|constructor|]. now apply single.
Qed.

Lemma clip_ok : forall v e s, shaped e s -> exists u, clip v e = Ok u /\ shaped u s.
Proof.
  intros v e s H. unfold clip. destruct (shaped_norm e s H) as [[n|] ->]; cbn [obind]; (eexists; split; [reflexivity|]); [|exact H]. destruct (Rgt_bool _ _); [now apply shaped_scale|exact H].
Qed.
Lemma clips_ok : forall v es, Forall some_shape es -> exists us, omapM (clip v) es = Ok us /\ length us = length es /\ Forall some_shape us /\ forall ss, Forall2 shaped es ss -> Forall2 shaped us ss.
Proof.
  intros v es H. induction H as [|e es [s E] H (us & E1 & E2 & E3 & E4)]; [exists []; repeat split; [constructor|]; intros ss Hs; inversion Hs; constructor|]. cbn [omapM].
  assert (C : exists u, clip v e = Ok u /\ forall s, shaped e s -> shaped u s).
  { destruct (clip_ok v e s E) as (u & Eu & _). exists u. split; [exact Eu|]. intros s' E'. destruct (clip_ok v e s' E') as (u' & Eu' & U). congruence. }
  destruct C as (u & Eu & U). rewrite Eu, E1. cbn [obind]. exists (u :: us). split; [reflexivity|]. split; [cbn; lia|]. split; [constructor; [exists s; auto|exact E3]|]. intros ss Hs. inversion Hs; subst. constructor; auto.
Qed.

(** ** The layers of a vertex *)
Fixpoint chain_shape (v : vertex) (ls : list layer) (ss : list shape) : option shape :=
  match ls with
  | [] => match ss with [s] => Some s | _ => None end
  | l :: ls => match layer_shape v l ss with Some s => chain_shape v ls [s] | None => None end
  end.
Fixpoint chain_sends (v : vertex) (head : bool) (ls : list layer) (ss : list shape) : Prop :=
  match ls with
  | [] => True
  | l :: ls => layer_sends v head l ss /\ forall s, layer_shape v l ss = Some s -> chain_sends v false ls [s]
  end.
Lemma chain_forward_ok : forall v p random training ls xs ss s, Forall2 shaped xs ss -> chain_shape v ls ss = Some s -> Forall (layer_fit v p) ls ->
  exists r y, chain_forward v p random training ls xs = Ok (r, y) /\ shaped y s.
Proof.
  intros v p random training ls. induction ls as [|l ls IH]; intros xs ss s H E F; cbn [chain_shape chain_forward] in *.
  - destruct ss as [|s0 [|]]; try discriminate. injection E as ->. one H. eexists. eexists. split; [reflexivity|assumption].
  - destruct (layer_shape v l ss) as [s0|] eqn:El; [|discriminate]. inversion F; subst. destruct (layer_forward_ok v p random training l xs ss s0) as (y & Ey & Y); try assumption. rewrite Ey. cbn [obind].
    destruct (IH [y] [s0] s) as (r & z & Er & Z); [now apply single|exact E|assumption|]. rewrite Er. cbn [obind fst snd]. eexists. eexists. split; [reflexivity|exact Z].
Qed.
Lemma chain_backward_ok : forall v p random ls head xs ss s, Forall2 shaped xs ss -> chain_shape v ls ss = Some s -> Forall (layer_fit v p) ls -> chain_sends v head ls ss ->
  exists r y, chain_forward v p random true ls xs = Ok (r, y) /\ forall e, shaped e s -> exists es dW dB,
    chain_backward v p random (combine ls r) e = Ok (es, (dW, dB)) /\ Forall2 shaped dW (flat_map (fun l => fst (layer_changes v l)) ls) /\ Forall2 shaped dB (flat_map (fun l => snd (layer_changes v l)) ls) /\
    length es = length ss /\ Forall some_shape es /\ (head = false -> Forall2 shaped es ss).
Proof.
  intros v p random ls. induction ls as [|l ls IH]; intros head xs ss s H E F B; cbn [chain_shape chain_forward chain_sends] in *.
  - destruct ss as [|s0 [|]]; try discriminate. injection E as ->. one H. eexists. eexists. split; [reflexivity|]. intros e He. cbn [combine chain_backward]. exists [e], [], []. split; [reflexivity|].
    split; [constructor|]. split; [constructor|]. split; [reflexivity|]. split; [constructor; [now exists s|constructor]|]. intros _. now apply single.
  - destruct (layer_shape v l ss) as [s0|] eqn:El; [|discriminate]. destruct B as [B1 B2]. inversion F; subst. destruct (layer_forward_ok v p random true l xs ss s0) as (y & Ey & Y); try assumption. rewrite Ey. cbn [obind].
    destruct (IH false [y] [s0] s) as (r & z & Er & Z); [now apply single|exact E|assumption|now apply B2|]. rewrite Er. cbn [obind fst snd]. eexists. eexists. split; [reflexivity|]. intros e He.
    destruct (Z e He) as (es & dW & dB & Z1 & Z2 & Z3 & Z4 & Z5 & Z6). cbn [combine chain_backward]. rewrite Z1. cbn [obind fst snd]. specialize (Z6 eq_refl). inversion Z6 as [|e' ? es' ? Z7 Z8]; subst. inversion Z8; subst.
    destruct (layer_backward_ok v p random head l xs ss s0 e') as (es & dW' & dB' & Q1 & Q2 & Q3 & Q4 & Q5 & Q6); try assumption. rewrite Q1. cbn [obind fst snd flat_map].
    destruct (clips_ok v es Q5) as (us & U1 & U2 & U3 & U4). destruct (clips v l).
    + rewrite U1. cbn [obind]. exists us, (dW' ++ dW), (dB' ++ dB). split; [reflexivity|]. split; [now apply Forall2_app|]. split; [now apply Forall2_app|]. split; [congruence|]. split; [exact U3|]. intros Hh. apply U4. auto.
    + cbn [obind]. exists es, (dW' ++ dW), (dB' ++ dB). split; [reflexivity|]. split; [now apply Forall2_app|]. split; [now apply Forall2_app|]. auto.
Qed.
