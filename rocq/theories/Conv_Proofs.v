(** Proofs about correlation, convolution and the convolution layer. *)
From Coq Require Import List Arith Bool Lia Ring.
From Verif Require Import Outcome Tensor_Model Tensor_Spec Views_Proofs Algebra_Proofs MatMul_Proofs Conv_Spec ConvLayer_Model.
Import ListNotations.

Lemma full_padding_small : forall k, 1 <= k <= 3 -> full_padding k = k - 1.
Proof. intros k H. assert (k = 1 \/ k = 2 \/ k = 3) as [->|[->| ->]] by lia; reflexivity. Qed.
Lemma full_padding_bounds : forall k, 4 <= k -> k <= 2 * full_padding k <= k + 1.
Proof.
  intros k H. unfold full_padding. replace (1 <? k) with true by (symmetry; apply Nat.ltb_lt; lia).
  pose proof (Nat.div_mod (k + 1) 2 ltac:(lia)). pose proof (Nat.mod_upper_bound (k + 1) 2 ltac:(lia)). lia.
Qed.

Section Any.
Context {A : Type} (o : ops A).
Notation T := (tensor A).

Lemma channel_tensor : forall (t : T) n m K f d, is_tensor t n m K f -> d < K ->
  is_tensor (channel_to o t d) n m 1 (fun i j _ => f i j d).
Proof.
  intros t n m K f d (<- & <- & <- & H) Hd. unfold is_tensor. cbn [rows cols chans channel_to]. repeat split; try reflexivity.
  intros i j l Hi Hj Hl. assert (l = 0) as -> by lia. cbn [get channel_to Nat.eqb Nat.add]. now apply H.
Qed.

Lemma uniform_tensor : forall n m k (v : A), is_tensor (uniform n m k v) n m k (fun _ _ _ => v).
Proof. intros. unfold is_tensor. cbn. auto. Qed.

Lemma scalar_tensor : forall (t : T) n m k f s, is_tensor t n m k f -> is_tensor (scalar_multiply o t s) n m k (fun i j l => mul o s (f i j l)).
Proof.
  intros t n m k f s (<- & <- & <- & H). unfold is_tensor. cbn [rows cols chans scalar_multiply get]. repeat split; try reflexivity.
  intros i j l Hi Hj Hl. now rewrite H by assumption.
Qed.

Lemma rotate_tensor : forall (t : T) n m k f, is_tensor t n m k f ->
  is_tensor (rotate180 t) n m k (fun i j l => f (n - 1 - i) (m - 1 - j) l).
Proof.
  intros t n m k f (<- & <- & <- & H). unfold is_tensor. cbn [rows cols chans rotate180 get]. repeat split; try reflexivity.
  intros i j l Hi Hj Hl. rewrite (wsub_le (rows t) 1), (wsub_le (cols t) 1), !wsub_le by lia. apply H; lia.
Qed.

Lemma pad_tensor : forall (t : T) n m k f a b, is_tensor t n m k f ->
  is_tensor (zero_pad o t a a b b) (n + (a + a)) (m + (b + b)) k
    (fun i j l => if (a <=? i) && (i - a <? n) && ((b <=? j) && (j - b <? m)) then f (i - a) (j - b) l else zero o).
Proof.
  intros t n m k f a b (<- & <- & <- & H). unfold is_tensor. cbn [rows cols chans zero_pad]. repeat split; try reflexivity.
  intros i j l Hi Hj Hl.
  destruct (le_lt_dec a i) as [Ha|Ha]. 2: { rewrite zero_pad_outer by lia. now replace (a <=? i) with false by (symmetry; apply Nat.leb_gt; lia). }
  replace (a <=? i) with true by (symmetry; apply Nat.leb_le; lia).
  destruct (le_lt_dec (rows t) (i - a)) as [Hn|Hn].
  { rewrite zero_pad_outer by lia. now replace (i - a <? rows t) with false by (symmetry; apply Nat.ltb_ge; lia). }
  replace (i - a <? rows t) with true by (symmetry; apply Nat.ltb_lt; lia).
  destruct (le_lt_dec b j) as [Hb|Hb]. 2: { rewrite zero_pad_outer by lia. now replace (b <=? j) with false by (symmetry; apply Nat.leb_gt; lia). }
  replace (b <=? j) with true by (symmetry; apply Nat.leb_le; lia).
  destruct (le_lt_dec (cols t) (j - b)) as [Hm|Hm].
  { rewrite zero_pad_outer by lia. now replace (j - b <? cols t) with false by (symmetry; apply Nat.ltb_ge; lia). }
  replace (j - b <? cols t) with true by (symmetry; apply Nat.ltb_lt; lia). cbn [andb].
  replace i with (a + (i - a)) at 1 by lia. replace j with (b + (j - b)) at 1 by lia.
  rewrite zero_pad_inner by lia. apply H; lia.
Qed.

Lemma vec_at_nth : forall {B} (l : list B) i d, i < length l -> vec_at l i = Ok (nth i l d).
Proof. intros B l i d H. unfold vec_at. now rewrite nth_error_nth' with (d := d). Qed.
End Any.

Section Ring.
Context {A : Type} (o : ops A) (opp : A -> A).
Hypothesis R : ring_theory (zero o) (one o) (add o) (mul o) (sub o) opp eq.
Add Ring Aring : R.
Notation T := (tensor A).

Lemma loop_nested : forall k2 (g : nat -> outcome A) h s, (forall j, j < k2 -> g j = Ok (h j)) ->
  loop k2 0 (fun j acc => do v <- g j; Ok (add o acc v)) s = Ok (add o s (Sum o k2 h)).
Proof.
  intros k2 g h s H. induction k2 as [|k IH]; [cbn [loop Sum]; f_equal; ring|].
  rewrite loop_S, IH by auto. cbn [obind Nat.add]. rewrite H by lia. cbn [obind Sum]. f_equal. ring.
Qed.

Lemma correlation_element : forall (t kernel : T) n m K p q K' f g,
  is_tensor t n m K f -> is_tensor kernel p q K' g -> K <= K' -> p <= n -> q <= m ->
  is_tensor (valid_correlation o t kernel) (n + 1 - p) (m + 1 - q) K
    (fun r c l => correlation o p q (fun i j => g i j l) (fun i j => f i j l) r c).
Proof.
  intros t kernel n m K p q K' f g (<- & <- & <- & Ht) (<- & <- & <- & Hk) HK Hp Hq.
  unfold is_tensor. cbn [rows cols chans valid_correlation]. rewrite !wsub_le by lia. repeat split; try reflexivity.
  intros r c l Hr Hc Hl. cbn [get valid_correlation].
  assert (E : forall kr s, kr < rows kernel ->
    loop (cols kernel) 0 (fun kc result => do x <- get kernel kr kc l; do y <- get t (r + kr) (c + kc) l; Ok (add o result (mul o x y))) s
    = Ok (add o s (Sum o (cols kernel) (fun j => mul o (g kr j l) (f (r + kr) (c + j) l))))).
  { intros kr s Hkr.
    rewrite (loop_ext _ _ _ (fun kc acc => do v <- (do x <- get kernel kr kc l; do y <- get t (r + kr) (c + kc) l; Ok (mul o x y)); Ok (add o acc v))).
    2: { intros j a. destruct (get kernel kr j l); cbn [obind]; try reflexivity. destruct (get t (r + kr) (c + j) l); reflexivity. }
    apply loop_nested. intros j Hj. rewrite Hk by lia. cbn [obind]. rewrite Ht by lia. reflexivity. }
  unfold correlation.
  assert (G : forall k, k <= rows kernel ->
    loop k 0 (fun kr result => loop (cols kernel) 0 (fun kc result => do x <- get kernel kr kc l; do y <- get t (r + kr) (c + kc) l; Ok (add o result (mul o x y))) result) (zero o)
    = Ok (Sum o k (fun i => Sum o (cols kernel) (fun j => mul o (g i j l) (f (r + i) (c + j) l))))).
  { induction k as [|k IH]; intros Hle; [reflexivity|]. rewrite loop_S, IH by lia. cbn [obind Nat.add Sum]. apply E. lia. }
  apply G. lia.
Qed.

Lemma full_convolve_element : forall (t kernel : T) n m K p q f g,
  1 <= n -> 1 <= m -> is_tensor t n m K f -> is_tensor kernel p q K g -> 1 <= p <= 3 -> 1 <= q <= 3 ->
  is_tensor (full_convolve o t kernel) (n + p - 1) (m + q - 1) K
    (fun r c l => convolution o n m p q (fun i j => g i j l) (fun i j => f i j l) r c).
Proof.
  intros t kernel n m K p q f g Hn1 Hm1 Ht Hk Hp Hq. unfold full_convolve, full_correlation.
  pose proof (rotate_tensor _ _ _ _ _ Hk) as Hr. pose proof Hr as (Rr & Rc & _). rewrite Rr, Rc, !full_padding_small by assumption.
  pose proof (pad_tensor o t n m K f (p - 1) (q - 1) Ht) as Hz.
  pose proof (correlation_element _ _ _ _ _ _ _ _ _ _ Hz Hr (le_n _)) as H. specialize (H ltac:(lia) ltac:(lia)).
  replace (n + (p - 1 + (p - 1)) + 1 - p) with (n + p - 1) in H by lia.
  replace (m + (q - 1 + (q - 1)) + 1 - q) with (m + q - 1) in H by lia.
  eapply is_tensor_ext; [exact H|]. intros r c l _ _ _. cbv beta. unfold correlation, convolution.
  rewrite (Sum_rev o opp R p). apply Sum_ext. intros i Hi. rewrite (Sum_rev o opp R q). apply Sum_ext. intros j Hj.
  replace (p - 1 - (p - 1 - i)) with i by lia. replace (q - 1 - (q - 1 - j)) with j by lia.
  replace (p - 1 <=? r + (p - 1 - i)) with (i <=? r).
  2: { destruct (Nat.leb_spec i r), (Nat.leb_spec (p - 1) (r + (p - 1 - i))); try reflexivity; lia. }
  replace (q - 1 <=? c + (q - 1 - j)) with (j <=? c).
  2: { destruct (Nat.leb_spec j c), (Nat.leb_spec (q - 1) (c + (q - 1 - j))); try reflexivity; lia. }
  destruct (Nat.leb_spec i r) as [Hir|Hir]; cbn [andb]; [|ring].
  destruct (Nat.leb_spec j c) as [Hjc|Hjc]; cbn [andb]; [|rewrite !andb_false_r; ring].
  replace (r + (p - 1 - i) - (p - 1)) with (r - i) by lia. replace (c + (q - 1 - j) - (q - 1)) with (c - j) by lia.
  destruct ((r - i <? n) && (c - j <? m)); [reflexivity|ring].
Qed.

(** The full convolution with the kernel is the transpose of the valid correlation with it. *)
Lemma adjoint : forall n m k1 k2 (e w h : nat -> nat -> A), 1 <= k1 <= n -> 1 <= k2 <= m ->
  inner o (n + 1 - k1) (m + 1 - k2) e (correlation o k1 k2 w h) =
  inner o n m h (convolution o (n + 1 - k1) (m + 1 - k2) k1 k2 w e).
Proof.
  intros n m k1 k2 e w h H1 H2. unfold inner, correlation, convolution.
  set (P := n + 1 - k1). set (Q := m + 1 - k2).
  transitivity (Sum o k1 (fun i => Sum o k2 (fun j => mul o (w i j) (Sum o P (fun r => Sum o Q (fun c => mul o (e r c) (h (r + i) (c + j)))))))).
  - rewrite (Sum_ext o P _ (fun r => Sum o k1 (fun i => Sum o Q (fun c => Sum o k2 (fun j => mul o (w i j) (mul o (e r c) (h (r + i) (c + j)))))))).
    + rewrite (Sum_swap o opp R). apply Sum_ext. intros i Hi.
      rewrite (Sum_ext o P _ (fun r => Sum o k2 (fun j => Sum o Q (fun c => mul o (w i j) (mul o (e r c) (h (r + i) (c + j)))))))
        by (intros; apply (Sum_swap o opp R)).
      rewrite (Sum_swap o opp R). apply Sum_ext. intros j Hj. rewrite <- (Sum_mul_l o opp R). apply Sum_ext. intros r Hr.
      now rewrite (Sum_mul_l o opp R).
    + intros r Hr. rewrite (Sum_swap o opp R). apply Sum_ext. intros c Hc.
      rewrite <- (Sum_mul_l o opp R). apply Sum_ext. intros i Hi. rewrite <- (Sum_mul_l o opp R). apply Sum_ext. intros j Hj. ring.
  - symmetry.
    rewrite (Sum_ext o n _ (fun p => Sum o k1 (fun i => Sum o m (fun q => Sum o k2 (fun j =>
       mul o (h p q) (if (i <=? p) && (p - i <? P) && ((j <=? q) && (q - j <? Q)) then mul o (w i j) (e (p - i) (q - j)) else zero o)))))).
    2: { intros p Hp. rewrite (Sum_swap o opp R). apply Sum_ext. intros q Hq.
         rewrite <- (Sum_mul_l o opp R). apply Sum_ext. intros i Hi. now rewrite <- (Sum_mul_l o opp R). }
    rewrite (Sum_swap o opp R). apply Sum_ext. intros i Hi.
    rewrite (Sum_ext o n _ (fun p => Sum o k2 (fun j => Sum o m (fun q =>
       mul o (h p q) (if (i <=? p) && (p - i <? P) && ((j <=? q) && (q - j <? Q)) then mul o (w i j) (e (p - i) (q - j)) else zero o)))))
      by (intros; apply (Sum_swap o opp R)).
    rewrite (Sum_swap o opp R). apply Sum_ext. intros j Hj.
    rewrite <- (Sum_mul_l o opp R).
    rewrite (Sum_ext o n _ (fun p => if (i <=? p) && (p <? i + P) then
        Sum o m (fun q => if (j <=? q) && (q <? j + Q) then mul o (w i j) (mul o (e (p - i) (q - j)) (h p q)) else zero o) else zero o)).
    + rewrite (Sum_window o opp R n P i) by (unfold P; lia). apply Sum_ext. intros r Hr.
      rewrite (Sum_window o opp R m Q j (fun q => mul o (w i j) (mul o (e (i + r - i) (q - j)) (h (i + r) q)))) by (unfold Q; lia).
      rewrite <- (Sum_mul_l o opp R). apply Sum_ext. intros c Hc.
      replace (i + r - i) with r by lia. replace (j + c - j) with c by lia. rewrite (Nat.add_comm i r), (Nat.add_comm j c). reflexivity.
    + intros p Hp.
      replace ((i <=? p) && (p <? i + P)) with ((i <=? p) && (p - i <? P)).
      2: { destruct (Nat.leb_spec i p); [|reflexivity]. cbn [andb]. destruct (Nat.ltb_spec (p - i) P), (Nat.ltb_spec p (i + P)); try reflexivity; lia. }
      destruct ((i <=? p) && (p - i <? P)); cbn [andb].
      * apply Sum_ext. intros q Hq.
        replace ((j <=? q) && (q <? j + Q)) with ((j <=? q) && (q - j <? Q)).
        2: { destruct (Nat.leb_spec j q); [|reflexivity]. cbn [andb]. destruct (Nat.ltb_spec (q - j) Q), (Nat.ltb_spec q (j + Q)); try reflexivity; lia. }
        destruct ((j <=? q) && (q - j <? Q)); ring.
      * apply (Sum_zero o opp R). intros; ring.
Qed.

(** The correlation of the input with the error is the transpose with respect to the kernel. *)
Lemma adjoint_kernel : forall P Q k1 k2 (e w x : nat -> nat -> A),
  inner o P Q e (correlation o k1 k2 w x) = inner o k1 k2 w (correlation o P Q e x).
Proof.
  intros P Q k1 k2 e w x. unfold inner, correlation.
  transitivity (Sum o P (fun r => Sum o k1 (fun i => Sum o Q (fun c => Sum o k2 (fun j => mul o (e r c) (mul o (w i j) (x (r + i) (c + j)))))))).
  - apply Sum_ext. intros r Hr. rewrite (Sum_swap o opp R). apply Sum_ext. intros c Hc.
    rewrite <- (Sum_mul_l o opp R). apply Sum_ext. intros i Hi. now rewrite <- (Sum_mul_l o opp R).
  - rewrite (Sum_swap o opp R). apply Sum_ext. intros i Hi.
    rewrite (Sum_ext o P _ (fun r => Sum o k2 (fun j => Sum o Q (fun c => mul o (e r c) (mul o (w i j) (x (r + i) (c + j)))))))
      by (intros; apply (Sum_swap o opp R)).
    rewrite (Sum_swap o opp R). apply Sum_ext. intros j Hj. rewrite <- (Sum_mul_l o opp R). apply Sum_ext. intros r Hr.
    rewrite <- (Sum_mul_l o opp R). apply Sum_ext. intros c Hc. rewrite (Nat.add_comm r i), (Nat.add_comm c j). ring.
Qed.

Lemma sum_to_channel_tensor : forall (t : T) n m f d D, is_tensor t n m 1 f ->
  is_tensor (sum_to_channel o t d D) n m D (fun i j l => if l =? d then f i j 0 else zero o).
Proof.
  intros t n m f d D (<- & <- & H3 & H). unfold is_tensor. cbn [rows cols chans sum_to_channel get]. repeat split; try reflexivity.
  intros i j l Hi Hj Hl. destruct (l =? d); [|reflexivity]. rewrite H3. cbn [loop]. rewrite H by lia. cbn [obind]. f_equal. ring.
Qed.

Lemma sum_channels_tensor : forall (t : T) n m K f, is_tensor t n m K f ->
  is_tensor (sum_channels o t) n m 1 (fun i j _ => Sum o K (fun l => f i j l)).
Proof.
  intros t n m K f (<- & <- & <- & H). unfold is_tensor, sum_channels. cbn [rows cols chans sum_to_channel get]. repeat split; try reflexivity.
  intros i j l Hi Hj Hl. assert (l = 0) as -> by lia. cbn [Nat.eqb].
  rewrite (loop_Sum o (chans t) (fun next => get t i j next) (fun l => f i j l)); [reflexivity|]. intros; now apply H.
Qed.

(** One filter of the forward pass. *)
Lemma conv_channels_element : forall (x w : T) n m k D f g, 1 <= D -> k <= n -> k <= m ->
  is_tensor x n m D f -> is_tensor w k k D g ->
  exists u, conv_channels o x w D = Ok (Some u) /\ is_tensor u (n + 1 - k) (m + 1 - k) 1
    (fun r c _ => Sum o D (fun d => correlation o k k (fun i j => g i j d) (fun i j => f i j d) r c)).
Proof.
  intros x w n m k D f g HD Hn Hm Hx Hw. unfold conv_channels.
  match goal with |- context [loop D 0 ?b None] => set (body := b) end.
  destruct (loop_inv (fun i (s : option T) => match i with 0 => s = None | _ => exists u, s = Some u /\ is_tensor u (n + 1 - k) (m + 1 - k) 1
     (fun r c _ => Sum o i (fun d => correlation o k k (fun i j => g i j d) (fun i j => f i j d) r c)) end) D body None) as (s & E & H).
  - reflexivity.
  - intros i s Hi Hs. unfold body.
    pose proof (correlation_element _ _ _ _ _ _ _ _ _ _ (channel_tensor o _ _ _ _ _ _ Hx Hi) (channel_tensor o _ _ _ _ _ _ Hw Hi) (le_n _) Hn Hm) as Hc.
    destruct i as [|i].
    + subst s. eexists. split; [reflexivity|]. eexists. split; [reflexivity|].
      eapply is_tensor_ext; [exact Hc|]. intros. cbv beta. cbn [Sum]. ring.
    + destruct Hs as (u & -> & Hu). destruct (pointwise_element (add o) _ _ _ _ _ _ _ Hu Hc) as (v & Ev & Hv).
      unfold add_view. rewrite Ev. cbn [obind]. eexists. split; [reflexivity|]. eexists. split; [reflexivity|]. exact Hv.
  - destruct D as [|D]; [lia|]. destruct H as (u & -> & Hu). exists u. auto.
Qed.

Lemma conv_forward_element : forall (weights : list T) (x : T) n m k D Fl f g, 1 <= D -> 1 <= Fl -> k <= n -> k <= m ->
  is_tensor x n m D f -> length weights = Fl -> (forall l, l < Fl -> is_tensor (nth l weights x) k k D (g l)) ->
  exists u, conv_forward o weights Fl D x = Ok u /\ is_tensor u (n + 1 - k) (m + 1 - k) Fl
    (fun r c l => Sum o D (fun d => correlation o k k (fun i j => g l i j d) (fun i j => f i j d) r c)).
Proof.
  intros weights x n m k D Fl f g HD HF Hn Hm Hx Hl Hw. unfold conv_forward.
  match goal with |- context [loop Fl 0 ?b None] => set (body := b) end.
  set (V := fun r c l => Sum o D (fun d => correlation o k k (fun i j => g l i j d) (fun i j => f i j d) r c)).
  destruct (loop_inv (fun i (s : option T) => match i with 0 => s = None | _ => exists u, s = Some u /\ is_tensor u (n + 1 - k) (m + 1 - k) Fl
     (fun r c l => if l <? i then V r c l else zero o) end) Fl body None) as (s & E & H).
  - reflexivity.
  - intros i s Hi Hs. unfold body. rewrite (vec_at_nth _ _ x) by lia. cbn [obind].
    destruct (conv_channels_element _ _ _ _ _ _ _ _ HD Hn Hm Hx (Hw i Hi)) as (c & Ec & Hc). rewrite Ec. cbn [obind].
    pose proof (sum_to_channel_tensor _ _ _ _ i Fl Hc) as Hs2. destruct i as [|i].
    + subst s. eexists. split; [reflexivity|]. eexists. split; [reflexivity|].
      eapply is_tensor_ext; [exact Hs2|]. intros a b l _ _ _. cbv beta. destruct l; reflexivity.
    + destruct Hs as (u & -> & Hu). destruct (pointwise_element (add o) _ _ _ _ _ _ _ Hu Hs2) as (v & Ev & Hv).
      unfold add_view. rewrite Ev. cbn [obind]. eexists. split; [reflexivity|]. eexists. split; [reflexivity|].
      eapply is_tensor_ext; [exact Hv|]. intros a b l _ _ _. cbv beta.
      destruct (Nat.eqb_spec l (S i)) as [->|Hne].
      * replace (S i <? S i) with false by (symmetry; apply Nat.ltb_irrefl).
        replace (S i <? S (S i)) with true by (symmetry; apply Nat.ltb_lt; lia). unfold V. ring.
      * replace (l <? S (S i)) with (l <? S i); [ring|].
        destruct (Nat.ltb_spec l (S i)), (Nat.ltb_spec l (S (S i))); try reflexivity; lia.
  - rewrite E. cbn [obind]. destruct Fl as [|Fl]; [lia|]. destruct H as (u & -> & Hu). exists u. split; [reflexivity|].
    eapply is_tensor_ext; [exact Hu|]. intros a b l _ _ Hlt. cbv beta. apply Nat.ltb_lt in Hlt. rewrite Hlt. reflexivity.
Qed.

(** What one filter adds to the input error of channel d, and its weight changes. *)
Definition share (n m k : nat) (g : nat -> nat -> nat -> A) (e : nat -> nat -> A) (p q d : nat) : A :=
  convolution o (n + 1 - k) (m + 1 - k) k k (fun i j => g i j d) e p q.
Definition change (n m k : nat) (l2 : option A) (f : nat -> nat -> nat -> A) (e : nat -> nat -> A) (i j d : nat) : A :=
  let v := correlation o (n + 1 - k) (m + 1 - k) e (fun a b => f a b d) i j in
  match l2 with None => v | Some s => add o v (mul o s v) end.

Lemma backward_filter_element : forall (w err last inputError : T) n m k D Fl l l2 f g e b,
  1 <= k <= 3 -> k <= n -> k <= m -> l < Fl ->
  is_tensor last n m D f -> is_tensor w k k D g -> is_tensor err (n + 1 - k) (m + 1 - k) Fl e -> is_tensor inputError n m D b ->
  exists ie ch, conv_backward_filter o w err last l D l2 inputError = Ok (ie, ch) /\
    is_tensor ie n m D (fun p q d => add o (b p q d) (share n m k g (fun i j => e i j l) p q d)) /\
    is_tensor ch k k D (change n m k l2 f (fun i j => e i j l)).
Proof.
  intros w err last inputError n m k D Fl l l2 f g e b Hk Hn Hm Hl Hx Hw He Hb. unfold conv_backward_filter.
  pose proof Hw as (W1 & W2 & W3 & _). rewrite W1, W2, W3.
  pose proof (channel_tensor o _ _ _ _ _ _ He Hl) as Hel.
  match goal with |- context [loop D 0 ?bd ?s0] => set (body := bd); set (s00 := s0) end.
  destruct (loop_inv (fun i (s : T * T) =>
     is_tensor (fst s) n m D (fun p q d => if d <? i then add o (b p q d) (share n m k g (fun i j => e i j l) p q d) else b p q d) /\
     is_tensor (snd s) k k D (fun p q d => if d <? i then change n m k l2 f (fun i j => e i j l) p q d else zero o)) D body s00) as ([ie ch] & E & H1 & H2).
  - unfold s00. cbn [fst snd]. split; [exact Hb|apply uniform_tensor].
  - intros i [ie ch] Hi [H1 H2]. unfold body. cbn [fst snd] in *.
    pose proof (full_convolve_element _ _ (n + 1 - k) (m + 1 - k) _ _ _ _ _ ltac:(lia) ltac:(lia) Hel (channel_tensor o _ _ _ _ _ _ Hw Hi) Hk Hk) as Hfc.
    replace (n + 1 - k + k - 1) with n in Hfc by lia. replace (m + 1 - k + k - 1) with m in Hfc by lia.
    destruct (pointwise_element (add o) _ _ _ _ _ _ _ H1 (sum_to_channel_tensor _ _ _ _ i D Hfc)) as (ie' & Eie & Hie).
    unfold add_view at 1. rewrite Eie. cbn [obind].
    pose proof (correlation_element _ _ _ _ _ _ _ _ _ _ (channel_tensor o _ _ _ _ _ _ Hx Hi) Hel (le_n _)) as Hcc. specialize (Hcc ltac:(lia) ltac:(lia)).
    replace (n + 1 - (n + 1 - k)) with k in Hcc by lia. replace (m + 1 - (m + 1 - k)) with k in Hcc by lia.
    assert (Hch : exists e', match l2 with None => Ok (valid_correlation o (channel_to o last i) (channel_to o err l))
              | Some strength => add_view o (valid_correlation o (channel_to o last i) (channel_to o err l)) (scalar_multiply o (valid_correlation o (channel_to o last i) (channel_to o err l)) strength) end = Ok e' /\
              is_tensor e' k k 1 (fun p q _ => change n m k l2 f (fun i j => e i j l) p q i)).
    { destruct l2 as [s|].
      - destruct (pointwise_element (add o) _ _ _ _ _ _ _ Hcc (scalar_tensor o _ _ _ _ _ s Hcc)) as (e' & Ee & He'). exists e'. split; [exact Ee|exact He'].
      - eexists. split; [reflexivity|]. exact Hcc. }
    destruct Hch as (e' & Ee & He'). rewrite Ee. cbn [obind].
    destruct (pointwise_element (add o) _ _ _ _ _ _ _ H2 (sum_to_channel_tensor _ _ _ _ i D He')) as (ch' & Ech & Hch').
    unfold add_view. rewrite Ech. cbn [obind]. eexists. split; [reflexivity|]. cbn [fst snd]. split.
    + eapply is_tensor_ext; [exact Hie|]. intros p q d _ _ _. cbv beta. destruct (Nat.eqb_spec d i) as [->|Hne].
      * rewrite Nat.ltb_irrefl. replace (i <? S i) with true by (symmetry; apply Nat.ltb_lt; lia). reflexivity.
      * replace (d <? S i) with (d <? i). 2: { destruct (Nat.ltb_spec d i), (Nat.ltb_spec d (S i)); try reflexivity; lia. }
        destruct (d <? i); ring.
    + eapply is_tensor_ext; [exact Hch'|]. intros p q d _ _ _. cbv beta. destruct (Nat.eqb_spec d i) as [->|Hne].
      * rewrite Nat.ltb_irrefl. replace (i <? S i) with true by (symmetry; apply Nat.ltb_lt; lia). ring.
      * replace (d <? S i) with (d <? i). 2: { destruct (Nat.ltb_spec d i), (Nat.ltb_spec d (S i)); try reflexivity; lia. }
        destruct (d <? i); ring.
  - exists ie, ch. split; [exact E|]. cbn [fst snd] in *. split.
    + eapply is_tensor_ext; [exact H1|]. intros p q d _ _ Hd. cbv beta. apply Nat.ltb_lt in Hd. now rewrite Hd.
    + eapply is_tensor_ext; [exact H2|]. intros p q d _ _ Hd. cbv beta. apply Nat.ltb_lt in Hd. now rewrite Hd.
Qed.

Lemma conv_backward_element : forall (weights : list T) (last err : T) n m k D Fl l2 f g e,
  1 <= k <= 3 -> k <= n -> k <= m ->
  is_tensor last n m D f -> length weights = Fl -> (forall l, l < Fl -> is_tensor (nth l weights last) k k D (g l)) ->
  is_tensor err (n + 1 - k) (m + 1 - k) Fl e ->
  exists u changes, conv_backward o weights Fl n m D l2 last err = Ok (u, changes) /\
    is_tensor u n m 1 (fun p q _ => Sum o D (fun d => Sum o Fl (fun l => share n m k (g l) (fun i j => e i j l) p q d))) /\
    length changes = Fl /\
    forall l, l < Fl -> is_tensor (nth l changes last) k k D (change n m k l2 f (fun i j => e i j l)).
Proof.
  intros weights last err n m k D Fl l2 f g e Hk Hn Hm Hx Hlen Hw He. unfold conv_backward.
  match goal with |- context [loop Fl 0 ?bd ?s0] => set (body := bd); set (s00 := s0) end.
  destruct (loop_inv (fun i (s : T * list T) =>
     is_tensor (fst s) n m D (fun p q d => Sum o i (fun l => share n m k (g l) (fun i j => e i j l) p q d)) /\
     length (snd s) = i /\ forall l, l < i -> is_tensor (nth l (snd s) last) k k D (change n m k l2 f (fun i j => e i j l))) Fl body s00)
    as ([ie ch] & E & H1 & H2 & H3).
  - unfold s00. cbn [fst snd Sum]. split; [apply uniform_tensor|]. split; [reflexivity|]. intros; lia.
  - intros i [ie ch] Hi (H1 & H2 & H3). unfold body. cbn [fst snd] in *.
    rewrite (vec_at_nth _ _ last) by lia. cbn [obind].
    destruct (backward_filter_element _ _ _ _ _ _ _ _ _ _ l2 _ _ _ _ Hk Hn Hm Hi Hx (Hw i Hi) He H1) as (ie' & ch' & E' & Hie & Hch).
    rewrite E'. cbn [obind fst snd]. eexists. split; [reflexivity|]. cbn [fst snd]. split; [exact Hie|].
    split; [rewrite app_length; cbn; lia|]. intros l Hl. destruct (Nat.eq_dec l i) as [->|Hne].
    + rewrite app_nth2 by lia. rewrite H2, Nat.sub_diag. exact Hch.
    + rewrite app_nth1 by lia. apply H3. lia.
  - rewrite E. cbn [obind fst snd]. eexists. eexists. split; [reflexivity|]. cbn [fst snd] in *. split; [|auto].
    exact (sum_channels_tensor _ _ _ _ _ H1).
Qed.
End Ring.
