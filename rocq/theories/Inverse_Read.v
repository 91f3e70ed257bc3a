(** From the elimination on one matrix to the inversion of a whole tensor. *)
From Coq Require Import List Arith Bool Lia Ring Field.
From Verif Require Import Outcome Tensor_Model Tensor_Spec Views_Proofs Algebra_Proofs MatMul_Proofs Inverse_Model Inverse_Proofs.
Import ListNotations.

Lemma omapM_cases : forall {B C} (f : B -> outcome C) (P : B -> C -> Prop) (Q : B -> Prop) l,
  (forall x, In x l -> (exists y, f x = Ok y /\ P x y) \/ (f x = Throw /\ Q x)) ->
  (exists ys, omapM f l = Ok ys /\ Forall2 P l ys) \/ (omapM f l = Throw /\ exists x, In x l /\ Q x).
Proof.
  intros B C f P Q l. induction l as [|x l IH]; intros H.
  - left. exists []. auto.
  - cbn [omapM]. destruct (H x (or_introl eq_refl)) as [(y & E & Py)|(E & Qx)].
    + rewrite E. cbn [obind]. destruct IH as [(ys & Eys & Pys)|(Eys & z & Hz & Qz)]. { intros z Hz. apply H. now right. }
      * left. exists (y :: ys). rewrite Eys. cbn [obind]. auto.
      * right. rewrite Eys. cbn [obind]. split; [reflexivity|]. exists z. split; [now right|exact Qz].
    + right. rewrite E. split; [reflexivity|]. exists x. split; [now left|exact Qx].
Qed.

Lemma Forall2_nth_both : forall {B C} (P : B -> C -> Prop) l m i d e, Forall2 P l m -> i < length l -> P (nth i l d) (nth i m e).
Proof.
  intros B C P l m i d e H. revert i. induction H as [|x y l m Hxy Hlm IH]; intros i Hi; [cbn in Hi; lia|].
  destruct i; cbn; [exact Hxy|]. apply IH. cbn in Hi. lia.
Qed.
Lemma Forall2_len : forall {B C} (P : B -> C -> Prop) l m, Forall2 P l m -> length l = length m.
Proof. induction 1; cbn; auto. Qed.

Lemma nth_map_seq : forall {B} (f : nat -> B) n i d, i < n -> nth i (map f (seq 0 n)) d = f i.
Proof.
  intros B f n i d H. rewrite nth_indep with (d' := f 0) by (rewrite map_length, seq_length; lia).
  rewrite map_nth. now rewrite seq_nth by lia.
Qed.

Section Any.
Context {A : Type} (o : ops A).

Lemma full_square : forall (vals : list (list (list A))) n, 0 < n -> vals <> [] ->
  (forall m, In m vals -> length m = n /\ forall row, In row m -> length row = n) ->
  exists u, full o vals = Ok u /\ is_tensor u n n (length vals) (fun i j k => nth j (nth i (nth k vals []) []) (zero o)).
Proof.
  intros vals n Hn Hv Hsq. destruct vals as [|m0 vals]; [contradiction|].
  destruct (Hsq m0 (or_introl eq_refl)) as [Lm Lr]. destruct m0 as [|row0 rows0]; [cbn in Lm; lia|].
  specialize (Lr row0 (or_introl eq_refl)). cbn [length] in Lm.
  unfold full. rewrite Lm, Lr.
  match goal with |- context [if ?b then _ else _] => replace b with true end.
  2: { symmetry. apply forallb_forall. intros m Hm. destruct (Hsq m Hm) as [L1 L2]. rewrite L1, Nat.leb_refl. cbn [andb].
       apply forallb_forall. intros row Hrow. rewrite (L2 row Hrow). apply Nat.leb_refl. }
  eexists. split; [reflexivity|]. unfold is_tensor. cbn [rows cols chans get]. repeat split; try reflexivity.
  intros i j l Hi Hj Hl. apply Nat.ltb_lt in Hi, Hj, Hl. rewrite Hi, Hj, Hl. reflexivity.
Qed.

Lemma read_matrix : forall (t : tensor A) n k, readable t -> rows t = n -> cols t = n -> k < chans t ->
  exists l, omapM (fun i => omapM (fun j => get t i j k) (seq 0 n)) (seq 0 n) = Ok l /\
            forall i j, i < n -> j < n -> nth j (nth i l []) (zero o) = val o t i j k.
Proof.
  intros t n k Ht Hr Hc Hk.
  assert (Hrow : forall i, i < n -> omapM (fun j => get t i j k) (seq 0 n) = Ok (map (fun j => val o t i j k) (seq 0 n))).
  { intros i Hi. destruct (omapM_get (fun j => get t i j k) (seq 0 n)) as (l & El & Ll & Hl).
    - intros j Hj. apply in_seq in Hj. apply Ht. unfold in_range. lia.
    - rewrite El. f_equal. apply nth_ext with (d := zero o) (d' := zero o); [now rewrite map_length|].
      intros j Hj. rewrite Ll, seq_length in Hj. rewrite nth_map_seq by exact Hj.
      destruct (Hl j j) as (v & Ev & Nv). { rewrite nth_error_nth' with (d := 0) by (rewrite seq_length; lia). now rewrite seq_nth by lia. }
      rewrite (nth_error_nth _ _ _ Nv). unfold val. now rewrite Ev. }
  destruct (omapM_get (fun i => omapM (fun j => get t i j k) (seq 0 n)) (seq 0 n)) as (l & El & Ll & Hl).
  { intros i Hi. apply in_seq in Hi. rewrite Hrow by lia. eauto. }
  exists l. split; [exact El|]. intros i j Hi Hj.
  destruct (Hl i i) as (v & Ev & Nv). { rewrite nth_error_nth' with (d := 0) by (rewrite seq_length; lia). now rewrite seq_nth by lia. }
  rewrite Hrow in Ev by exact Hi. injection Ev as <-. rewrite (nth_error_nth _ _ _ Nv). exact (nth_map_seq (fun j => val o t i j k) n j (zero o) Hj).
Qed.
End Any.

Section Field.
Context {A : Type} (o : ops A) (opp inv : A -> A).
Hypothesis F : field_theory (zero o) (one o) (add o) (mul o) (sub o) opp (div o) inv eq.
Hypothesis eqb_spec : forall x y, eqb o x y = true <-> x = y.

Lemma inverse_cases : forall (t : tensor A) n, readable t -> rows t = n -> cols t = n -> 0 < n -> 0 < chans t ->
  (exists u f, inverse o t = Ok u /\ is_tensor u n n (chans t) f /\
     forall l i j, l < chans t -> i < n -> j < n ->
       Sum o n (fun k => mul o (f i k l) (val o t k j l)) = delta o i j /\
       Sum o n (fun k => mul o (val o t i k l) (f k j l)) = delta o i j) \/
  (inverse o t = Throw /\ exists l i x, l < chans t /\ i < n /\ x i = one o /\
     forall r, r < n -> Sum o n (fun c => mul o (val o t r c l) (x c)) = zero o).
Proof.
  intros t n Ht Hr Hc Hn Hk. unfold inverse. rewrite Hr.
  match goal with |- context [omapM ?f (seq 0 (chans t))] => set (g := f) end.
  destruct (omapM_cases g
    (fun l m => (length m = n /\ forall row, In row m -> length row = n) /\
       forall i j, i < n -> j < n ->
       Sum o n (fun k => mul o (nth k (nth i m []) (zero o)) (val o t k j l)) = delta o i j /\
       Sum o n (fun k => mul o (val o t i k l) (nth j (nth k m []) (zero o))) = delta o i j)
    (fun l => l < chans t /\ exists i x, i < n /\ x i = one o /\ forall r, r < n -> Sum o n (fun c => mul o (val o t r c l) (x c)) = zero o)
    (seq 0 (chans t))) as [(ys & E & HF)|(E & l & Hin & Hl & i & x & H)].
  - intros l Hl. apply in_seq in Hl. unfold g. destruct (read_matrix o t n l Ht Hr Hc ltac:(lia)) as (a & Ea & Ha). rewrite Ea. cbn [obind].
    set (a' := fun i j => nth j (nth i a []) (zero o)).
    destruct (gauss_jordan_spec o opp inv F eqb_spec n a') as [(m & Em & Hm)|(Em & i & x & Hi & Hx & Hz)].
    + left. rewrite Em. cbn [obind]. eexists. split; [reflexivity|].
      split.
      * split; [now rewrite map_length, seq_length|]. intros row Hrow. apply in_map_iff in Hrow. destruct Hrow as (i & <- & _).
        now rewrite map_length, seq_length.
      * intros i j Hi Hj. destruct (inverse_matrix o opp inv F n a' m Hm i j Hi Hj) as [I1 I2].
        split; [rewrite <- I1|rewrite <- I2]; apply Sum_ext; intros k Hk'; rewrite !nth_map_seq by assumption;
          rewrite <- Ha by assumption; reflexivity.
    + right. rewrite Em. split; [reflexivity|]. split; [lia|]. exists i, x. split; [exact Hi|]. split; [exact Hx|].
      intros r Hr'. rewrite <- (Hz r Hr'). apply Sum_ext. intros c Hc'. unfold a'. now rewrite Ha.
  - left. rewrite E. cbn [obind].
    pose proof (Forall2_len _ _ _ HF) as Ly. rewrite seq_length in Ly.
    destruct (full_square o ys n Hn) as (u & Eu & Hu).
    + intros ->. cbn in Ly. lia.
    + intros m Hm. apply In_nth with (d := []) in Hm. destruct Hm as (l & Hl & <-).
      pose proof (Forall2_nth_both _ _ _ l 0 [] HF ltac:(rewrite seq_length; lia)) as G. apply G.
    + exists u. eexists. split; [exact Eu|]. rewrite <- Ly in Hu. split; [exact Hu|].
      intros l i j Hl Hi Hj. pose proof (Forall2_nth_both _ _ _ l 0 [] HF ltac:(rewrite seq_length; lia)) as G.
      rewrite seq_nth in G by lia. apply (proj2 G i j Hi Hj).
  - right. rewrite E. split; [reflexivity|]. exists l, i, x. tauto.
Qed.
End Field.
