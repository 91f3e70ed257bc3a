(** Proofs about predictions in [float] beside the exact ones. *)
From Coq Require Import List Arith Bool NArith ZArith Reals Lia Lra.
From Flocq Require Import Core IEEE754.BinarySingleNaN IEEE754.Binary IEEE754.Bits.
From Verif Require Import Outcome Tensor_Model Tensor_Spec F32_Model F32_Proofs MatMul_Proofs Activation_Model Layer_Model Graph_Model Graph_Spec Net_Model Net_Spec FloatNet_Model FloatNet_Spec FloatNet_Proofs FloatRun_Spec FloatLip_Proofs FloatLayer_Proofs FloatProb_Proofs.
From Verif Require FloatNorm_Layer.
From Verif Require Reduce_Model Scaling_Spec ModelFile_Model ModelFile_Spec ModelFile_Proofs Activation_Props FloatSoft_Proofs Graph_Forward Graph_Props Net_Proofs Net_Vertex Net_Graph Net_Flow.
Import ListNotations.
Local Open Scope R_scope.

(** ** Values of a network *)
Section Values.
Context {V : Type} (g : graph) (layer : nat -> list V -> outcome V) (given : list V) (P : nat -> V -> Prop) (dummy : V) (rank : nat -> nat).
Context (ND : NoDup (heads g)) (HH : forall h, In h (heads g) -> ins g h = []) (HN : forall c, conn g c -> node g (from g c)) (HR : forall c, conn g c -> (rank (from g c) < rank (to g c))%nat).
Context (HL : length given = length (heads g)).
Context (H1 : forall i h x, nth_error (heads g) i = Some h -> nth_error given i = Some x -> exists y, layer h [x] = Ok y /\ P h y).
Context (H2 : forall v xs, ins g v <> [] -> Forall2 (fun c x => P (from g c) x) (ins g v) xs -> exists y, layer v xs = Ok y /\ P v y).
Definition get_value (r : outcome V) : V := match r with Ok y => y | _ => dummy end.
Fixpoint value_at (fuel : nat) (id : nat) : V :=
  match fuel with
  | O => dummy
  | S fuel => match ins g id with
              | [] => match find (fun hx => Nat.eqb (fst hx) id) (combine (heads g) given) with Some hx => get_value (layer id [snd hx]) | None => dummy end
              | cs => get_value (layer id (map (fun c => value_at fuel (from g c)) cs))
              end
  end.
Lemma find_given : forall (hs : list nat) (xs : list V) i h x, NoDup hs -> nth_error hs i = Some h -> nth_error xs i = Some x -> find (fun hx => Nat.eqb (fst hx) h) (combine hs xs) = Some (h, x).
Proof.
  intros hs. induction hs as [|k hs IH]; intros xs i h x N Eh Ex; [destruct i; discriminate|]. apply NoDup_cons_iff in N as [N1 N2]. destruct xs as [|z xs]; [destruct i; discriminate|]. destruct i as [|i]; cbn [nth_error] in *.
  - injection Eh as ->. injection Ex as ->. cbn [combine find fst]. now rewrite Nat.eqb_refl.
  - cbn [combine find fst]. destruct (Nat.eqb_spec k h) as [->|_]; [exfalso; apply N1; now apply nth_error_In in Eh|]. now apply (IH xs i).
Qed.
Lemma values_ok : forall N id, (rank id < N)%nat -> node g id ->
  (forall fuel, (rank id < fuel)%nat -> value_at fuel id = value_at (S (rank id)) id) /\ P id (value_at (S (rank id)) id) /\
  (ins g id <> [] -> layer id (map (fun c => value_at (S (rank (from g c))) (from g c)) (ins g id)) = Ok (value_at (S (rank id)) id)).
Proof.
  induction N as [|N IH]; intros id Hr Hn; [lia|]. destruct (ins g id) as [|c cs] eqn:Ei.
  - destruct Hn as [Hn|Hn]; [|contradiction]. destruct (In_nth_error _ _ Hn) as [i Eh]. assert (Hx : (i < length given)%nat) by (rewrite HL; apply nth_error_Some; congruence). destruct (nth_error given i) as [x|] eqn:Ex; [|apply nth_error_None in Ex; lia].
    destruct (H1 i id x Eh Ex) as (y & Ey & Py). assert (Q : forall fuel, (rank id < fuel)%nat -> value_at fuel id = y). { intros [|fuel] Hf; [lia|]. cbn [value_at]. rewrite Ei, (find_given _ _ _ _ _ ND Eh Ex). cbn [snd]. rewrite Ey. reflexivity. }
    split; [intros fuel Hf; rewrite !Q by lia; reflexivity|]. split; [rewrite Q by lia; exact Py|]. intros Z. contradiction.
  - assert (Hc : forall x, In x (c :: cs) -> conn g x /\ to g x = id) by (intros x Hx; rewrite <- Ei in Hx; now apply Graph_Forward.in_ins in Hx).
    assert (Hp : forall x, In x (c :: cs) -> (forall fuel, (rank (from g x) < fuel)%nat -> value_at fuel (from g x) = value_at (S (rank (from g x))) (from g x)) /\ P (from g x) (value_at (S (rank (from g x))) (from g x))).
    { intros x Hx. destruct (Hc x Hx) as [C1 C2]. pose proof (HR x C1) as R. rewrite C2 in R. destruct (IH (from g x) ltac:(lia) (HN x C1)) as (A & B & _). auto. }
    destruct (H2 id (map (fun x => value_at (S (rank (from g x))) (from g x)) (c :: cs))) as (y & Ey & Py); [congruence| |].
    { rewrite Ei. clear - Hp. induction (c :: cs) as [|x l IH]; [constructor|]. cbn [map]. constructor; [apply Hp; now left|]. apply IH. intros z Hz. apply Hp. now right. }
    assert (Q : forall fuel, (rank id < fuel)%nat -> value_at fuel id = y). { intros [|fuel] Hf; [lia|]. cbn [value_at]. rewrite Ei. replace (map (fun x => value_at fuel (from g x)) (c :: cs)) with (map (fun x => value_at (S (rank (from g x))) (from g x)) (c :: cs)); [rewrite Ey; reflexivity|].
      apply map_ext_in. intros x Hx. symmetry. destruct (Hc x Hx) as [C1 C2]. pose proof (HR x C1) as R. rewrite C2 in R. apply (proj1 (Hp x Hx)). lia. }
    split; [intros fuel Hf; rewrite !Q by lia; reflexivity|]. split; [rewrite Q by lia; exact Py|]. intros _. rewrite Q by lia. exact Ey.
Qed.
Lemma values_exist : exists val, values g layer given val /\ forall id, node g id -> P id (val id).
Proof.
  exists (fun id => value_at (S (rank id)) id). split.
  - split.
    + intros i h x Eh Ex. destruct (H1 i h x Eh Ex) as (y & Ey & _). cbn [value_at]. rewrite (HH h (nth_error_In _ _ Eh)), (find_given _ _ _ _ _ ND Eh Ex). cbn [snd]. rewrite Ey. reflexivity.
    + intros v Hv. destruct (values_ok (S (rank v)) v ltac:(lia) (or_intror Hv)) as (_ & _ & A). now apply A.
  - intros id Hn. apply (values_ok (S (rank id)) id); [lia|exact Hn].
Qed.
End Values.

(** ** One vertex *)
Lemma same_length : forall A B (P : A -> B -> Prop) l l', Forall2 P l l' -> length l = length l'.
Proof. intros A B P l l' F. induction F; cbn; congruence. Qed.
Lemma exact_shaped : forall t s, numbers_of t s -> shaped (exact t) s.
Proof. intros t [[r c] k] [f H]. exists f. now apply exact_tensor. Qed.
Lemma shaped_flattened : forall t s, shaped t s -> shaped (if (rows t =? 1)%nat then t else row_flatten t) (flattened s).
Proof.
  intros t [[r c] k] H. cbn [flattened]. assert (E : rows t = r) by (destruct H as [f Hf]; apply Hf). rewrite E. destruct (r =? 1)%nat; [exact H|]. now apply Net_Proofs.shaped_flatten.
Qed.
Definition float_fits (v : vertex) (p : float_params) : Prop :=
  (ModelFile_Model.node_type v = ModelFile_Model.full -> numbers_of (float_weights p) (volume (input_shape v), volume (output_shape v), 1%nat)) /\
  (ModelFile_Model.node_type v = ModelFile_Model.convolution2dValid ->
     length (float_kernels p) = filters_of v /\ Forall (fun w => numbers_of w (kernel v, kernel v, snd (input_shape v))) (float_kernels p)) /\
  (ModelFile_Model.node_type v = ModelFile_Model.dropout -> is_number (float_rate p) /\ number (float_rate p) = ModelFile_Model.dropout_rate v /\ 0 <= ModelFile_Model.dropout_rate v < 1) /\
  (ModelFile_Model.use_bias v = true -> numbers_of (float_biases p) (output_shape v)).
(** The same for each layer. *)
Definition layer_fits (v : vertex) (p : float_params) (l : layer) : Prop :=
  match l with
  | Full => numbers_of (float_weights p) (volume (input_shape v), volume (output_shape v), 1%nat)
  | Conv => length (float_kernels p) = filters_of v /\ Forall (fun w => numbers_of w (kernel v, kernel v, snd (input_shape v))) (float_kernels p)
  | Dropout => is_number (float_rate p) /\ number (float_rate p) = ModelFile_Model.dropout_rate v /\ 0 <= ModelFile_Model.dropout_rate v < 1
  | Bias => numbers_of (float_biases p) (output_shape v)
  | _ => True
  end.
Lemma fits_layers : forall v p, float_fits v p -> Forall (layer_fits v p) (layers_of v).
Proof.
  intros v p (F1 & F2 & F3 & F4). unfold layers_of. apply Forall_app. split; [|apply Forall_app; split; [|apply Forall_app; split]].
  - destruct (ModelFile_Model.node_type v); cbn [app]; try (destruct (1 <? _)%nat; cbn [app]); repeat match goal with |- Forall _ _ => constructor end; cbn [layer_fits]; first [exact I|apply F1; reflexivity|apply F2; reflexivity|apply F3; reflexivity].
  - destruct (ModelFile_Model.use_bias v); [|constructor]. constructor; [|constructor]. cbn [layer_fits]. now apply F4.
  - destruct (ModelFile_Model.use_normalization v); repeat constructor.
  - destruct (ModelFile_Model.weighted _); repeat constructor.
Qed.
Lemma exact_fit : forall v p, float_fits v p -> fit v (exact_params p).
Proof.
  intros v p (F1 & F2 & _ & F4). split; [intros E; apply exact_shaped; now apply F1|]. split; [|intros E; apply exact_shaped; now apply F4]. intros E. destruct (F2 E) as [L F]. cbn [exact_params kernels]. split; [now rewrite map_length|]. apply Forall_map. eapply Forall_impl; [|exact F]. intros w Hw. now apply exact_shaped.
Qed.
Notation beside := (fun (b : bound) (ty : T * FT) => near b (fst ty) (snd ty)).
Lemma beside_within : forall bs tys o, Forall2 beside bs tys -> Forall (fun i => within i o) bs -> Forall2 (near o) (map fst tys) (map snd tys).
Proof. intros bs tys o F. induction F as [|b ty bs tys H F IH]; intros G; constructor; apply Forall_cons_iff in G as [G1 G2]; [now apply (near_within b)|now apply IH]. Qed.
(** A layer that takes a single tensor. *)
Lemma one_beside : forall bs tys (P : bound -> Prop) s, Forall2 beside bs tys -> Forall2 shaped (map fst tys) [s] -> Forall P bs -> exists b t y, bs = [b] /\ tys = [(t, y)] /\ near b t y /\ shaped t s /\ P b.
Proof.
  intros bs tys P s Hn Hs HP. apply same_length in Hs as Ls. rewrite map_length in Ls. destruct tys as [|[t y] [|? ?]]; try discriminate Ls. cbn [map fst] in Hs. inversion Hn as [|b ty bs' tys' Nb Hn' E1 E2]; subst. inversion Hn'; subst. cbn [fst snd] in Nb. exists b, t, y. repeat split; try apply Nb; [inversion Hs; assumption|now apply Forall_inv in HP].
Qed.
Lemma softmax_near : forall lib e x y r c k f i o, faithful_softmax lib (r * c * k) e -> is_tensor x r c k f -> near i x y -> softmax_bounds e i o ->
  exists t u, softmax x = Ok t /\ float_softmax lib y = Ok u /\ near o t u.
Proof.
  intros lib e x y r c k f i o Hf Tx Nx (B0 & B1 & B2). destruct (near_split _ _ _ _ _ _ _ Tx Nx) as [Ny Hy]. set (h := fun i j l => number (element y i j l)) in *. destruct (Activation_Props.softmax_formula x _ _ _ _ Tx) as (t & Et & Tt).
  destruct (Nat.eq_dec (r * c * k) 0) as [Z|Z].
  - destruct (numbers_tensor _ _ _ _ _ Ny) as [Ty _]. destruct (FloatSoft_Proofs.float_softmax_is lib y _ _ _ _ Ty) as (u & Eu & Tu). exists t, u. split; [exact Et|]. split; [exact Eu|]. destruct Tt as (R1 & R2 & R3 & _). destruct Tu as (Q1 & Q2 & Q3 & _). unfold near. rewrite R1, R2, R3, Q1, Q2, Q3. repeat split; try reflexivity.
    intros a j l Ha Hj Hl. exfalso. apply Nat.eq_mul_0 in Z as [Z|Z]; [apply Nat.eq_mul_0 in Z|]; lia.
  - destruct (Hf y r c k h (largest i + error i) Ny ltac:(lia) eq_refl) as (u & h1 & Eu & Nu & H1); [intros a j l Ha Hj Hl; destruct (Hy a j l Ha Hj Hl) as [Q1 Q2]; exact (near_size _ _ _ _ Q1 Q2)|exact B0|].
    exists t, u. split; [exact Et|]. split; [exact Eu|]. apply (near_join o t u _ _ _ _ _ Tt Nu). intros a j l Ha Hj Hl. specialize (H1 a j l Ha Hj Hl).
    assert (E0 : 0 <= error i) by (eapply Rle_trans; [apply Rabs_pos|apply (Hy a j l Ha Hj Hl)]). destruct (softmax_stable r c k f h (error i) E0) with (i := a) (j := j) (l := l) as (P1 & _ & P3); [intros a' j' l' Ha' Hj' Hl'; now apply Hy|assumption..|].
    cbv beta. set (p := exp (f a j l) / _) in *. set (q := exp (h a j l) / _) in *. clearbody p q. split; [rewrite Rabs_pos_eq; lra|]. replace (h1 a j l - p) with ((h1 a j l - q) + (q - p)) by ring. eapply Rle_trans; [apply Rabs_triang|]. lra.
Qed.
(** Behind normalization the shapes do not change any more. *)
Definition keeps (l : layer) : bool := match l with Bias | Normalize | Activate => true | _ => false end.
Fixpoint settled (ls : list layer) : bool := match ls with [] => true | l :: ls => (match l with Normalize => forallb keeps ls | _ => true end && settled ls)%bool end.
Lemma settled_split : forall ls before after, settled ls = true -> ls = before ++ Normalize :: after -> forallb keeps after = true.
Proof.
  intros ls before. revert ls. induction before as [|l before IH]; intros ls after H ->; cbn [app settled] in H; apply andb_true_iff in H as [H1 H2]; [exact H1|]. now apply (IH _ after H2).
Qed.
Lemma settled_layers : forall v, settled (layers_of v) = true.
Proof.
  intros v. unfold layers_of. destruct (ModelFile_Model.node_type v); try (destruct (1 <? _)%nat); destruct (ModelFile_Model.use_bias v); destruct (ModelFile_Model.use_normalization v); try (destruct (ModelFile_Model.weighted _)); reflexivity.
Qed.
Lemma kept_shape : forall v ls s s', forallb keeps ls = true -> Net_Proofs.chain_shape v ls [s] = Some s' -> s = s'.
Proof.
  intros v ls. induction ls as [|l ls IH]; intros s s' K H; [cbn in H; congruence|]. cbn [forallb] in K. apply andb_true_iff in K as [K1 K2]. rewrite Net_Vertex.chain_cons in H. destruct l; try discriminate K1; cbn [Net_Proofs.layer_shape] in H; [now apply IH| |now apply IH]. destruct (shape_eqb s (output_shape v)); [now apply IH|discriminate].
Qed.
Section Vertex.
Context (lib : library) (v : vertex) (p : float_params) (n : nat) (w : R) (random : nat -> nat -> nat -> R) (e : ModelFile_Model.activation -> R -> R).
Lemma layer_near : forall l bs tys ss s o, l <> Activate -> Forall2 beside bs tys -> Forall2 shaped (map fst tys) ss -> Net_Proofs.layer_shape v l ss = Some s -> layer_fits v p l -> Forall (layer_bounds n w v p e l o) bs -> (l = Normalize -> volume s = n /\ forall t, map fst tys = [t] -> has_element w t) ->
  exists t y, layer_forward v (exact_params p) random false l (map fst tys) = Ok t /\ float_layer_forward lib v p l (map snd tys) = Ok y /\ near o t y.
Proof.
  intros l bs tys ss s o Ha Hn Hs Hg Hf Hb Hz. destruct l; cbn [Net_Proofs.layer_shape layer_fits layer_bounds] in *.
  - (* Flatten *)
    destruct ss as [|s1 [|s2 ss]]; try discriminate. destruct (one_beside _ _ _ _ Hn Hs Hb) as (b & t & y & -> & -> & Nb & Sh & W). cbn [map fst snd]. eexists _, _. split; [reflexivity|]. split; [reflexivity|]. cbn [fst]. apply near_flatten. now apply (near_within b).
  - (* Full *)
    destruct ss as [|[[r c] k] [|s2 ss]]; try discriminate. destruct (one_beside _ _ _ _ Hn Hs Hb) as (b & t & y & -> & -> & Nb & [f Tf] & W). destruct ((c =? volume (input_shape v))%nat && (k =? 1)%nat) eqn:C; [|discriminate]. apply andb_true_iff in C as [C1 C2]. apply Nat.eqb_eq in C1, C2. subst c k.
    destruct (full_near t y (float_weights p) r (volume (input_shape v)) (volume (output_shape v)) f b o Tf Nb Hf W) as (t' & y' & E1 & E2 & N). exists t', y'. cbn [map fst snd layer_forward float_layer_forward fc_forward new_fc fc_weights exact_params weights]. rewrite E1, E2. cbn [obind snd]. auto.
  - (* Concat *)
    destruct ss as [|[[r c] k] [|s2 ss]]; try discriminate. destruct (forallb _ _) eqn:Fb; [|discriminate]. apply same_length in Hs as Ls. rewrite map_length in Ls. cbn [length] in Ls. pose proof (beside_within _ _ _ Hn Hb) as Nb. destruct (near_concat o (map fst tys) (map snd tys) r k Nb) as (t & y & E1 & N & E2).
    { rewrite forallb_forall in Fb. clear - Hs Fb. revert Hs. generalize (map fst tys). revert Fb. generalize ((r, c, k) :: s2 :: ss). intros l Fb ts Hs. induction Hs as [|t [[r' c'] k'] ts l H Hs IH]; constructor. - pose proof (Fb _ (or_introl eq_refl)) as Q. cbn in Q. apply andb_true_iff in Q as [Q1 Q2]. apply Nat.eqb_eq in Q1, Q2. subst. destruct H as [f (A & _ & B & _)]. auto. - apply IH. intros x Hx. apply Fb. now right. }
    { rewrite map_length. lia. }
    exists t, y. auto.
  - (* Normalize *)
    destruct ss as [|s1 [|s2 ss]]; try discriminate. injection Hg as ->. destruct (one_beside _ _ _ _ Hn Hs Hb) as (b & t & y & -> & -> & Nb & Sh & W). destruct (Hz eq_refl) as [Ev Hw]. destruct (Hw t eq_refl) as (a & j & q & z & Ha' & Hj & Hq & Ez & Lz). destruct s as [[r c] k]. destruct Sh as [f Tf]. rewrite <- Ev in W. cbn [layer_bounds volume] in W.
    destruct (FloatNorm_Layer.normalization_near t y r c k f w b o Tf Nb) as (t' & q' & y' & E1 & E2 & N); [|exact W|].
    { destruct Tf as (T1 & T2 & T3 & T4). rewrite T1 in Ha'. rewrite T2 in Hj. rewrite T3 in Hq. exists a, j, q. rewrite (T4 a j q Ha' Hj Hq) in Ez. injection Ez as ->. auto. }
    exists t', y'. cbn [map fst snd layer_forward float_layer_forward]. rewrite E1. cbn [obind fst]. auto.
  - (* Dropout *)
    destruct ss as [|[[r c] k] [|s2 ss]]; try discriminate. destruct (one_beside _ _ _ _ Hn Hs Hb) as (b & t & y & -> & -> & Nb & [f Tf] & W). destruct Hf as (Nr & Er & Hr). cbv beta in W. cbn [layer_bounds] in W. rewrite <- Er in W, Hr. destruct (dropout_near t y (float_rate p) r c k f b o Tf Nb Nr Hr W) as (t' & y' & E1 & E2 & N). exists t', y'. cbn [map fst snd layer_forward float_layer_forward]. rewrite <- Er. auto.
  - (* Conv *)
    destruct ss as [|[[r c] k] [|s2 ss]]; try discriminate. destruct (one_beside _ _ _ _ Hn Hs Hb) as (b & t & y & -> & -> & Nb & [f Tf] & W). destruct (_ && _) eqn:Ea in Hg; [|discriminate]. rewrite !andb_true_iff, Nat.eqb_eq, !Nat.leb_le in Ea. destruct Ea as ((((E1 & E2) & E3) & E4) & E5). subst k. destruct Hf as [L Fw].
    destruct (conv_near t y (float_kernels p) r c (kernel v) (snd (input_shape v)) (filters_of v) f b o Tf Nb E2 E3 E4 E5 L Fw W) as (t' & y' & Q1 & Q2 & N). exists t', y'. auto.
  - (* Bias *)
    destruct ss as [|s1 [|s2 ss]]; try discriminate. destruct (shape_eqb s1 (output_shape v)) eqn:Es; [|discriminate]. apply Net_Proofs.shape_eqb_eq in Es. subst s1. destruct (one_beside _ _ _ _ Hn Hs Hb) as (b & t & y & -> & -> & Nb & Sh & W). cbn [layer_bounds] in W. destruct (output_shape v) as [[r c] k]. destruct Sh as [f Tf].
    destruct (bias_near t y (float_biases p) r c k f b o Tf Nb Hf W) as (t' & y' & E1 & E2 & N). exists t', y'. auto.
  - (* Activate *) contradiction.
Qed.

(** *** The layers one after the other *)
Definition run_chain (ls : list layer) (xs : list T) : outcome T := do r <- chain_forward v (exact_params p) random false ls xs; Ok (snd r).
Lemma run_chain_cons : forall l ls xs, run_chain (l :: ls) xs = do y <- layer_forward v (exact_params p) random false l xs; run_chain ls [y].
Proof. intros l ls xs. unfold run_chain. cbn [chain_forward]. destruct (layer_forward _ _ _ _ _ _) as [y| |]; cbn [obind]; try reflexivity. destruct (chain_forward _ _ _ _ ls [y]) as [[? ?]| |]; reflexivity. Qed.
Lemma chain_near : forall ls rest bs tys ss s o, ~ In Activate ls -> ls <> [] ->
  Forall2 beside bs tys -> Forall2 shaped (map fst tys) ss -> Net_Proofs.chain_shape v (ls ++ rest) ss = Some s -> Forall (layer_fits v p) ls -> Forall (Net_Proofs.layer_fit v (exact_params p)) ls -> chain_bounds n w v p e (ls ++ rest) bs o ->
  settled (ls ++ rest) = true -> volume s = n -> (forall before after seen t, ls ++ rest = before ++ Normalize :: after -> chain_forward v (exact_params p) random false before (map fst tys) = Ok (seen, t) -> has_element w t) ->
  exists t y s' mid, run_chain (ls ++ rest) (map fst tys) = run_chain rest [t] /\ float_chain lib v p (ls ++ rest) (map snd tys) = float_chain lib v p rest [y] /\
    near mid t y /\ shaped t s' /\ Net_Proofs.chain_shape v rest [s'] = Some s /\ chain_bounds n w v p e rest [mid] o.
Proof.
  intros ls rest. induction ls as [|l ls IH]; intros bs tys ss s o Ha Ne Hn Hs Hg Hf Hx Hb Hk Hv Hz; [contradiction|]. apply Forall_cons_iff in Hf as [Hf Hf']. apply Forall_cons_iff in Hx as [Hx Hx']. cbn [app] in *. rewrite Net_Vertex.chain_cons in Hg. destruct (Net_Proofs.layer_shape v l ss) as [s1|] eqn:El; [|discriminate]. destruct Hb as (mid & Hb & Hb').
  destruct (layer_near l bs tys ss s1 mid) as (t & y & E1 & E2 & N); auto. { intros ->. apply Ha. now left. }
  { intros ->. split; [|intros t Et; apply (Hz [] (ls ++ rest) [] t eq_refl); rewrite Et; reflexivity]. rewrite <- Hv. f_equal. apply (kept_shape v (ls ++ rest)); [|exact Hg]. now apply (settled_split _ [] _ Hk). }
  destruct (Net_Proofs.layer_forward_ok v (exact_params p) random false l _ ss s1 Hs El Hx) as (t' & E1' & S1). assert (t' = t) as -> by congruence.
  rewrite run_chain_cons, E1. cbn [float_chain obind]. rewrite E2. cbn [obind]. destruct ls as [|l' ls].
  - exists t, y, s1, mid. cbn [app] in *. clear IH. repeat split; try reflexivity; try apply N; auto.
  - apply (IH [mid] [(t, y)] [s1] s o); try assumption; [intros H; apply Ha; now right|discriminate|constructor; [exact N|constructor]|constructor; [exact S1|constructor]|cbn [settled] in Hk; now apply andb_true_iff in Hk|].
    intros before after seen x Eb Ec. apply (Hz (l :: before) after (map fst tys :: seen) x); [change (l :: ((l' :: ls) ++ rest) = l :: (before ++ Normalize :: after)); now rewrite Eb|]. cbn [chain_forward]. rewrite E1. cbn [obind map fst] in Ec |- *. rewrite Ec. reflexivity.
Qed.
Lemma front_layers : exists front, front <> [] /\ ~ In Activate front /\ layers_of v = front ++ if ModelFile_Model.weighted (ModelFile_Model.node_type v) then [Activate] else [].
Proof.
  unfold layers_of. set (a := match ModelFile_Model.node_type v with ModelFile_Model.full => _ | _ => _ end). assert (A : a <> [] /\ ~ In Activate a) by (unfold a; destruct (ModelFile_Model.node_type v); try (destruct (1 <? _)%nat); cbn; split; try discriminate; intuition discriminate).
  destruct A as [A1 A2]. exists (a ++ (if ModelFile_Model.use_bias v then [Bias] else []) ++ (if ModelFile_Model.use_normalization v then [Normalize] else [])). split; [intros Z; apply app_eq_nil in Z as [Z _]; contradiction|]. split; [|now rewrite !app_assoc].
  intros I. apply in_app_or in I as [I|I]; [contradiction|]. apply in_app_or in I as [I|I]; [destruct (ModelFile_Model.use_bias v)|destruct (ModelFile_Model.use_normalization v)]; cbn in I; intuition discriminate.
Qed.
Lemma near_output_not : forall o t y, ~ chooses v -> near o t y -> near_output lib v o t y.
Proof. intros o t y H N. split; [contradiction|auto]. Qed.
Lemma vertex_near : forall bs tys ss s o, faithful_vertex lib e v s -> float_fits v p -> Forall2 beside bs tys -> Forall2 shaped (map fst tys) ss -> gives v ss = Some s -> chain_bounds n w v p e (layers_of v) bs o -> volume s = n ->
  (forall before after seen t, layers_of v = before ++ Normalize :: after -> chain_forward v (exact_params p) random false before (map fst tys) = Ok (seen, t) -> has_element w t) ->
  exists t y, vertex_forward v (exact_params p) random false (map fst tys) = Ok t /\ float_vertex_forward lib v p (map snd tys) = Ok y /\ shaped t s /\ near_output lib v o t y.
Proof.
  intros bs tys ss s o Fa Fi Hn Hs Hg Hb Hv Hz. pose proof (settled_layers v) as Hk. destruct (Net_Vertex.vertex_forward_ok v (exact_params p) random false _ _ s Hs Hg (exact_fit v p Fi)) as (t & Et & St). exists t.
  cut (exists t' y, vertex_forward v (exact_params p) random false (map fst tys) = Ok t' /\ float_vertex_forward lib v p (map snd tys) = Ok y /\ near_output lib v o t' y).
  { intros (t' & y & E1 & E2 & N). exists y. assert (t' = t) as -> by congruence. auto. }
  clear t Et St. apply Net_Vertex.gives_chain in Hg. pose proof (fits_layers v p Fi) as Lf. pose proof (Net_Vertex.fit_layers v _ (exact_fit v p Fi)) as Lx. destruct front_layers as (front & Ne & Na & El). unfold vertex_forward, float_vertex_forward. fold (run_chain (layers_of v) (map fst tys)). rewrite El in *. apply Forall_app in Lf as [Lf _]. apply Forall_app in Lx as [Lx _].
  destruct (chain_near front _ bs tys ss s o Na Ne Hn Hs Hg Lf Lx Hb Hk Hv Hz) as (t & y & s' & mid & E1 & E2 & N & Sh & Cs & Cb). rewrite E1, E2. clear E1 E2 Hn Hs Hg Hb Hk Hz Lf Lx Ne Na El front. destruct (ModelFile_Model.weighted (ModelFile_Model.node_type v)) eqn:Hw.
  - destruct Cb as (mid' & Cb & E). cbn [chain_bounds] in E. injection E as ->. apply Forall_inv in Cb. cbn [Net_Proofs.chain_shape Net_Proofs.layer_shape] in Cs. injection Cs as ->. destruct s as [[r c] k]. destruct Sh as [f Tf]. rewrite run_chain_cons. cbn [float_chain layer_forward float_layer_forward].
    specialize (Fa Hw). cbn [layer_bounds] in Cb.
    assert (D : ModelFile_Model.activation_type v = ModelFile_Model.softmax \/ ModelFile_Model.activation_type v <> ModelFile_Model.softmax) by (destruct (ModelFile_Model.activation_type v); (left; reflexivity) || (right; discriminate)). destruct D as [As|As].
    + rewrite As in Cb, Fa |- *. cbn [activation_of]. change (activate Softmax t) with (softmax t). cbn [float_activate]. destruct (ModelFile_Model.producesOutput v) eqn:Po.
      * destruct (near_split _ _ _ _ _ _ _ Tf N) as [Nz _]. destruct (numbers_tensor _ _ _ _ _ Nz) as [Tz _].
        destruct (Activation_Props.softmax_formula t _ _ _ _ Tf) as (u & Eu & _). destruct (FloatSoft_Proofs.float_softmax_is lib y _ _ _ _ Tz) as (w1 & Ew & _). rewrite Eu, Ew. exists u, w1. split; [reflexivity|]. split; [reflexivity|]. split; [|intros Z; exfalso; apply Z; repeat split; assumption]. intros _. exists t, y. split; [now apply (near_within mid)|]. auto.
      * destruct Fa as [Fa|Fa]; [discriminate Fa|]. destruct (softmax_near lib _ t y r c k f mid o Fa Tf N Cb) as (u & w1 & Eu & Ew & N'). rewrite Eu, Ew. exists u, w1. split; [reflexivity|]. split; [reflexivity|]. apply near_output_not; [|exact N']. intros [_ Z]. congruence.
    + assert (Cb' : activation_bounds (e (ModelFile_Model.activation_type v)) mid o) by (destruct (ModelFile_Model.activation_type v); try exact Cb; contradiction).
      assert (Fa' : faithful lib (ModelFile_Model.activation_type v) (e (ModelFile_Model.activation_type v))) by (destruct (ModelFile_Model.activation_type v); try exact Fa; contradiction).
      destruct (activation_near lib _ _ t y r c k f mid o As Fa' Tf N Cb') as (t' & y' & E1 & E2 & N'). rewrite E1, E2. exists t', y'. split; [reflexivity|]. split; [reflexivity|]. apply near_output_not; [|exact N']. intros [[_ Z] _]. contradiction.
  - cbn [chain_bounds] in Cb. injection Cb as ->. exists t, y. split; [reflexivity|]. split; [reflexivity|]. apply near_output_not; [|exact N]. intros [[Z _] _]. congruence.
Qed.
End Vertex.
Lemma given_near : forall most x s, numbers_up_to most x s -> shaped (exact x) s /\ near {| largest := most; error := 0 |} (exact x) x.
Proof.
  intros most x [[r c] k] (f & N & B). pose proof (exact_tensor x r c k f N) as E. split; [now exists f|]. eapply near_join; [exact E|exact N|]. intros i j l Hi Hj Hl. cbn [largest error]. split; [now apply B|]. rewrite Rminus_diag_eq by reflexivity. rewrite Rabs_R0. lra.
Qed.

(** ** The whole network *)
Section Network.
Context (ps : list (list nat)) (d : dsl) (b : building) (D : ModelFile_Proofs.described ps d).
Context (HI : forall i v, nth_error (ModelFile_Model.vertices d) i = Some v -> nth i ps [] = [] -> ModelFile_Model.acceptsInput v = true) (B : ModelFile_Model.build d = Ok b) (OE : outputs_end d).
Context (sh : nat -> shape) (W : well_shaped d b sh).
Context (lib : library) (pa : nat -> float_params) (random : nat -> nat -> nat -> nat -> R) (e : ModelFile_Model.activation -> R -> R) (least most : nat -> R) (bs : nat -> bound) (given : list FT).
Context (Fa : forall id v, ModelFile_Model.vertex_at d id = Ok v -> faithful_vertex lib e v (sh id)).
Context (Fi : float_fit d pa) (Gi : float_given d most given) (Bo : bounds d b sh pa e least most bs) (Ac : normalizes_something d b pa random given least).
Definition both (id : nat) (xs : list (T * FT)) : outcome (T * FT) :=
  do t <- forward_at d (fun id => exact_params (pa id)) random false id (map fst xs); do y <- float_forward_at lib d pa id (map snd xs); Ok (t, y).
Lemma both_vertex : forall id v tys, ModelFile_Model.vertex_at d id = Ok v -> Forall2 beside (arriving_bounds b most bs id v) tys -> Forall2 shaped (map fst tys) (arriving_shapes d b sh id v) ->
  (forall before after seen t, layers_of v = before ++ Normalize :: after -> chain_forward v (exact_params (pa id)) (random id) false before (map fst tys) = Ok (seen, t) -> has_element (least id) t) ->
  exists ty, both id tys = Ok ty /\ shaped (fst ty) (sh id) /\ near_output lib v (bs id) (fst ty) (snd ty).
Proof.
  intros id v tys Ev Hn Hs Hz. destruct (vertex_near lib v (pa id) (volume (sh id)) (least id) (random id) e _ tys _ (sh id) (bs id) (Fa id v Ev) (Fi id v Ev) Hn Hs (W id v Ev) (Bo id v Ev) eq_refl Hz) as (t & y & E1 & E2 & S1 & N).
  exists (t, y). unfold both, forward_at, float_forward_at. rewrite Ev. cbn [obind]. rewrite E1. cbn [obind]. rewrite E2. auto.
Qed.
Lemma both_ok : forall id xs ty, both id xs = Ok ty -> forward_at d (fun id => exact_params (pa id)) random false id (map fst xs) = Ok (fst ty) /\ float_forward_at lib d pa id (map snd xs) = Ok (snd ty).
Proof.
  intros id xs ty H. unfold both in H. destruct (forward_at _ _ _ _ _ _) as [t| |]; cbn [obind] in H; try discriminate. destruct (float_forward_at _ _ _ _ _) as [y| |]; cbn [obind] in H; try discriminate. injection H as <-. auto.
Qed.
Lemma network_near : exists value fvalue,
  values (network d b) (forward_at d (fun id => exact_params (pa id)) random false) (map exact given) value /\
  values (network d b) (float_forward_at lib d pa) given fvalue /\
  length given = length (heads (network d b)) /\
  forall id v, ModelFile_Model.vertex_at d id = Ok v -> shaped (value id) (sh id) /\ near_output lib v (bs id) (value id) (fvalue id).
Proof.
  destruct (Net_Graph.network_well_formed ps d b D HI B) as (W1 & W2 & W3 & rank & W4). set (g := network d b) in *. set (pairs := map (fun x => (exact x, x)) given).
  assert (L : length given = length (heads g)) by (symmetry; apply (same_length _ _ _ _ _ Gi)).
  assert (AF : all_fit d (fun id => exact_params (pa id))) by (intros id v Ev; apply exact_fit; exact (Fi id v Ev)).
  assert (GF : given_fit d (map exact given)). { clear - Gi. unfold given_fit, float_given in *. induction Gi as [|a y la ly (v & Ev & Hy) F IH]; cbn [map]; constructor; auto. exists v. split; [exact Ev|]. now apply (given_near _ _ _ Hy). }
  pose proof (Net_Flow.flow_values _ d b D HI B sh W _ AF random false _ GF) as V0. set (value0 := Net_Flow.val _ _ _ _ _ _) in V0. clearbody value0. fold g in V0.
  destruct (values_exist g both pairs (fun id ty => (shaped (fst ty) (sh id) /\ fst ty = value0 id) /\ forall v, ModelFile_Model.vertex_at d id = Ok v -> near_output lib v (bs id) (fst ty) (snd ty)) ({| rows := 0; cols := 0; chans := 0; get := fun _ _ _ => UB |}, {| rows := 0; cols := 0; chans := 0; get := fun _ _ _ => UB |}) rank W1 W2 W3 W4) as (val & [V1 V2] & HP).
  - unfold pairs. now rewrite map_length.
  - intros i h ty Eh Et. unfold pairs in Et. rewrite nth_error_map in Et. destruct (nth_error given i) as [x|] eqn:Ex; [|discriminate]. cbn in Et. injection Et as <-.
    assert (Q : exists v, ModelFile_Model.vertex_at d h = Ok v /\ numbers_up_to (most h) x (input_shape v)).
    { clear - Gi Eh Ex. unfold float_given in Gi. change (heads g) with (ModelFile_Model.inputReceptors d) in Eh. revert i Eh Ex. induction Gi as [|a y la ly Hy F IH]; intros i Eh Ex; [destruct i; discriminate|]. destruct i as [|i]; cbn [nth_error] in *; [now injection Eh as ->; injection Ex as ->|]. now apply (IH F i). }
    destruct Q as (v & Ev & Nx). destruct (given_near _ _ _ Nx) as [S1 N1]. assert (A : ModelFile_Model.acceptsInput v = true) by (apply (Net_Graph.head_iff ps d b D HI h v Ev); now apply nth_error_In in Eh).
    destruct (both_vertex h v [(exact x, x)]) as (ty & E1 & E2 & E3); [exact Ev| | |intros before after seen z El Ec; apply (Ac value0 V0 h v [exact x] before after seen z Ev); [unfold arrives; rewrite A; exists i, x; auto|exact El|exact Ec]|exists ty; split; [exact E1|]; split; [split; [exact E2|]; pose proof (proj1 (both_ok _ _ _ E1)) as Q; cbn [map fst] in Q; rewrite (proj1 V0 i h (exact x) Eh) in Q by (rewrite nth_error_map, Ex; reflexivity); congruence|]; intros v' Ev'; assert (v' = v) as -> by congruence; exact E3]; unfold arriving_bounds, arriving_shapes; rewrite A; cbn [map fst]; constructor; auto.
  - intros id tys Hi F. destruct (proj1 (Net_Graph.node_vertex ps d b D HI B id)) as [v Ev]; [now right|]. assert (A : ModelFile_Model.acceptsInput v = false) by (destruct (ModelFile_Model.acceptsInput v) eqn:Q; [apply (Net_Graph.head_ins ps d b D HI B id v Ev) in Q; contradiction|reflexivity]).
    assert (Em : map fst tys = map (fun c => value0 (from g c)) (ins g id)) by (clear - F; induction F as [|c ty cs tys [[_ H] _] F IH]; cbn [map]; congruence).
    assert (F' : Forall2 (fun c ty => shaped (fst ty) (sh (from g c)) /\ near (bs (from g c)) (fst ty) (snd ty)) (ins g id) tys).
    { assert (Hc : forall c, In c (ins g id) -> conn g c) by (intros c Hc; now apply Graph_Forward.in_ins in Hc). clear - F Hc W3 OE D HI B. induction F as [|c ty cs tys [[H1 _] H2] F IH]; constructor; [|apply IH; intros x Hx; apply Hc; now right]. split; [exact H1|]. specialize (Hc c (or_introl eq_refl)).
      destruct (proj1 (Net_Graph.node_vertex ps d b D HI B (from g c)) (W3 c Hc)) as [u Eu]. apply (H2 u Eu). intros [_ Q].
      pose proof (Net_Graph.outs_edges ps d b D HI B (from g c) u Eu) as L. apply ModelFile_Proofs.vertex_at_ok in Eu as [_ Eu]. apply nth_error_In in Eu. rewrite (OE u Eu Q) in L. assert (I : In c (outs g (from g c))) by (apply Graph_Forward.in_outs; now split). fold g in L. destruct (outs g (from g c)); [destruct I|discriminate L]. }
    clear F. rename F' into F. destruct (both_vertex id v tys) as (ty & E1 & E2 & E3); [exact Ev| | |intros before after seen z El Ec; apply (Ac value0 V0 id v (map fst tys) before after seen z Ev); [unfold arrives; rewrite A, <- (Net_Graph.arriving_ins d b), map_map; exact Em|exact El|exact Ec]|exists ty; split; [exact E1|]; split; [split; [exact E2|]; pose proof (proj1 (both_ok _ _ _ E1)) as Q; rewrite Em, (proj2 V0 id Hi) in Q; congruence|]; intros v' Ev'; assert (v' = v) as -> by congruence; exact E3]; unfold arriving_bounds, arriving_shapes; rewrite A, <- (Net_Graph.arriving_ins d b), map_map; fold g.
    + clear - F. induction F as [|c ty cs tys [_ H] F IH]; constructor; auto.
    + clear - F. induction F as [|c ty cs tys [H _] F IH]; constructor; auto.
  - exists (fun id => fst (val id)), (fun id => snd (val id)). split; [|split; [|split; [exact L|]]].
    + split.
      * intros i h x Eh Ex. rewrite nth_error_map in Ex. destruct (nth_error given i) as [y|] eqn:Ey; [|discriminate]. injection Ex as <-. specialize (V1 i h (exact y, y) Eh). unfold pairs in V1. rewrite nth_error_map, Ey in V1. now apply (both_ok _ _ _ (V1 eq_refl)).
      * intros v Hv. specialize (V2 v Hv). apply both_ok in V2 as [V2 _]. now rewrite map_map in V2.
    + split.
      * intros i h x Eh Ex. specialize (V1 i h (exact x, x) Eh). unfold pairs in V1. rewrite nth_error_map, Ex in V1. now apply (both_ok _ _ _ (V1 eq_refl)).
      * intros v Hv. specialize (V2 v Hv). apply both_ok in V2 as [_ V2]. now rewrite map_map in V2.
    + intros id v Ev. destruct (HP id) as [[P1 _] P2]; [apply (Net_Graph.node_vertex ps d b D HI B id); eauto|]. split; [exact P1|now apply P2].
Qed.
End Network.
