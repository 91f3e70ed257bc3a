(** Proofs about convolutions in [float]. *)
From Coq Require Import List Arith Bool ZArith Reals Lia Lra.
From Flocq Require Import Core Relative Plus_error IEEE754.BinarySingleNaN IEEE754.Binary IEEE754.Bits.
From Verif Require Import Outcome Tensor_Model Tensor_Spec F32_Model F32_Proofs Reduce_Model Activation_Model FloatNet_Model FloatNet_Spec FloatNet_Proofs.
From Verif Require Import Views_Proofs Algebra_Proofs MatMul_Proofs Conv_Spec Conv_Proofs ConvLayer_Model.
Import ListNotations.
Local Open Scope R_scope.

(** ** Sums in any order *)
Lemma no_size : forall z, Rabs z <= 0 -> z = 0.
Proof. intros z H. pose proof (Rabs_pos z) as P. destruct (Req_dec z 0) as [E|E]; [exact E|]. apply Rabs_no_R0 in E. lra. Qed.
(** [x] is a sum of [n] rounded products in some order: near [z], and the products have the sizes [s] together. *)
Definition summed (x : F) (z s : R) (n : nat) : Prop :=
  is_number x /\ Rabs z <= s /\ match n with O => s = 0 /\ number x = 0 | _ => Rabs (number x - z) <= sum_error n s end.
Lemma summed_zero : summed float0 0 0 0.
Proof. split; [reflexivity|]. rewrite Rabs_R0. split; [lra|]. split; reflexivity. Qed.
Lemma summed_error : forall x z s n, summed x z s n -> Rabs (number x - z) <= sum_error n s.
Proof. intros x z s [|n] (_ & A & B); [|exact B]. destruct B as [-> ->]. assert (z = 0) as -> by (apply no_size; lra). rewrite Rminus_diag_eq, Rabs_R0 by reflexivity. apply sum_error_pos. lra. Qed.
Lemma summed_size : forall x z s n, summed x z s n -> 0 <= s.
Proof. intros x z s n (_ & A & _). pose proof (Rabs_pos z). lra. Qed.
Section Bounded.
Context (most : R) (count : nat) (Hb : in_bounds (most + sum_error count most)).
Lemma in_range : forall x z s n, Rabs z <= s -> Rabs (x - z) <= sum_error n s -> s <= most -> (n <= count)%nat -> Rabs x < max32.
Proof.
  intros x z s n A B C D. unfold in_bounds in Hb. rewrite <- max_is in Hb. eapply Rle_lt_trans; [|exact Hb]. apply Rle_trans with (s + sum_error n s); [|apply sum_error_le; [exact D|pose proof (Rabs_pos z); lra]].
  replace x with (z + (x - z)) by ring. eapply Rle_trans; [apply Rabs_triang|]. lra.
Qed.
Lemma summed_product : forall a b, is_number a -> is_number b -> Rabs (number a * number b) <= most -> (1 <= count)%nat -> summed (fmul a b) (number a * number b) (Rabs (number a * number b)) 1.
Proof.
  intros a b Na Nb M C. set (z := number a * number b) in *.
  assert (E : Rabs (rnd z - z) <= sum_error 1 (Rabs z)). { eapply Rle_trans; [apply rounded_error|]. unfold sum_error. cbn [Nat.add INR]. rewrite !pow_1. cbn [pow]. pose proof unit_pos as U. pose proof tiny_pos as Y. pose proof (Rabs_pos z) as P. assert (0 <= unit_error * Rabs z) by (apply Rmult_le_pos; lra). assert (0 <= unit_error * unit_error * Rabs z) by (apply Rmult_le_pos; [apply Rmult_le_pos; lra|lra]). assert (0 <= unit_error * tiny) by (apply Rmult_le_pos; lra). lra. }
  destruct (fmul_correct a b Na Nb) as [V Fi]. { fold (number a) (number b). fold z. apply (in_range _ z (Rabs z) 1); auto; lra. }
  split; [exact Fi|]. split; [lra|]. unfold number at 1. rewrite V. exact E.
Qed.
Lemma error_join : forall n m s t z w x y, Rabs z <= s -> Rabs w <= t -> F32 x -> F32 y -> Rabs (x - z) <= sum_error (S n) s -> Rabs (y - w) <= sum_error (S m) t ->
  Rabs (rnd (x + y) - (z + w)) <= sum_error (S n + S m) (s + t).
Proof.
  intros n m s t z w x y A B Fx Fy C D. replace (rnd (x + y) - (z + w)) with ((rnd (x + y) - (x + y)) + ((x - z) + (y - w))) by ring. eapply Rle_trans; [apply Rabs_triang|]. pose proof (sum_rounded_error x y Fx Fy) as E.
  assert (P : Rabs (x + y) <= (s + t) + (sum_error (S n) s + sum_error (S m) t)). { replace (x + y) with ((z + w) + ((x - z) + (y - w))) by ring. eapply Rle_trans; [apply Rabs_triang|]. apply Rplus_le_compat; (eapply Rle_trans; [apply Rabs_triang|lra]). }
  assert (Q : Rabs ((x - z) + (y - w)) <= sum_error (S n) s + sum_error (S m) t) by (eapply Rle_trans; [apply Rabs_triang|lra]).
  pose proof unit_pos as U. assert (unit_error * Rabs (x + y) <= unit_error * ((s + t) + (sum_error (S n) s + sum_error (S m) t))) by (apply Rmult_le_compat_l; lra).
  apply Rle_trans with ((1 + unit_error) * (sum_error (S n) s + sum_error (S m) t) + unit_error * (s + t)); [lra|]. clear - U A B.
  assert (S0 : 0 <= s) by (pose proof (Rabs_pos z); lra). assert (T0 : 0 <= t) by (pose proof (Rabs_pos w); lra). clear A B.
  assert (G : forall k l r, (k < l)%nat -> 0 <= r -> (1 + unit_error) * sum_error k r + unit_error * r <= ((1 + unit_error) ^ (l + 1) - 1) * r + INR k * (1 + unit_error) ^ l * tiny).
  { intros k l r Hk Hr. unfold sum_error. replace ((1 + unit_error) * (((1 + unit_error) ^ (k + 1) - 1) * r + INR k * (1 + unit_error) ^ k * tiny) + unit_error * r) with (((1 + unit_error) * (1 + unit_error) ^ (k + 1) - 1) * r + INR k * ((1 + unit_error) * (1 + unit_error) ^ k) * tiny) by ring. rewrite !tech_pow_Rmult.
    apply Rplus_le_compat; [apply Rmult_le_compat_r; [exact Hr|]; apply Rplus_le_compat_r; apply Rle_pow; [lra|lia]|]. apply Rmult_le_compat_r; [left; apply tiny_pos|]. apply Rmult_le_compat_l; [apply pos_INR|]. apply Rle_pow; [lra|lia]. }
  pose proof (G (S n) (S n + S m)%nat s ltac:(lia) S0) as G1. pose proof (G (S m) (S n + S m)%nat t ltac:(lia) T0) as G2. unfold sum_error at 3. rewrite plus_INR. lra.
Qed.
Lemma summed_add : forall x y z w s t n m, summed x z s n -> summed y w t m -> s + t <= most -> (n + m <= count)%nat -> summed (fadd x y) (z + w) (s + t) (n + m).
Proof.
  intros x y z w s t n m Hx Hy M C. pose proof (summed_size _ _ _ _ Hx) as S0. pose proof (summed_size _ _ _ _ Hy) as T0. pose proof (summed_error _ _ _ _ Hx) as E1. pose proof (summed_error _ _ _ _ Hy) as E2. destruct Hx as (Nx & A1 & B1). destruct Hy as (Ny & A2 & B2).
  assert (Z : Rabs (z + w) <= s + t) by (eapply Rle_trans; [apply Rabs_triang|lra]).
  cut (match (n + m)%nat with O => s + t = 0 /\ rnd (number x + number y) = 0 | _ => Rabs (rnd (number x + number y) - (z + w)) <= sum_error (n + m) (s + t) end).
  { intros K. assert (K' : Rabs (rnd (number x + number y) - (z + w)) <= sum_error (n + m) (s + t)). { destruct (n + m)%nat eqn:Q; [|exact K]. destruct K as [K1 K2]. rewrite K1, K2 in *. assert (z + w = 0) as -> by (apply no_size; lra). rewrite Rminus_diag_eq, Rabs_R0 by reflexivity. apply sum_error_pos. lra. }
    destruct (fadd_correct x y Nx Ny) as [V Fi]. { fold (number x) (number y). apply (in_range _ (z + w) (s + t) (n + m)); auto. } fold (number x) (number y) (number (fadd x y)) in V.
    split; [exact Fi|]. split; [exact Z|]. rewrite V. exact K. }
  destruct n as [|n].
  - destruct B1 as [-> ->]. assert (z = 0) as -> by (apply no_size; lra). rewrite !Rplus_0_l. cbn [Nat.add]. rewrite (rnd_id (number y)) by apply val_format. exact B2.
  - destruct m as [|m].
    + destruct B2 as [-> ->]. assert (w = 0) as -> by (apply no_size; lra). rewrite !Rplus_0_r, Nat.add_0_r. rewrite (rnd_id (number x)) by apply val_format. exact B1.
    + cbn [Nat.add]. change (S (n + S m)) with (S n + S m)%nat. apply error_join; auto; apply val_format.
Qed.
End Bounded.

(** ** Tensors of sums *)
Definition summed_tensor (y : FT) (n m K : nat) (z s : nat -> nat -> nat -> R) (cnt : nat -> nat) : Prop :=
  rows y = n /\ cols y = m /\ chans y = K /\ forall i j l, (i < n)%nat -> (j < m)%nat -> (l < K)%nat -> exists x, get y i j l = Ok x /\ summed x (z i j l) (s i j l) (cnt l).
Lemma summed_le : forall x z s n z' s' n', z = z' -> s = s' -> n = n' -> summed x z s n -> summed x z' s' n'.
Proof. intros; subst; assumption. Qed.
Lemma partial_sum : forall n k (f : nat -> R), (k <= n)%nat -> (forall i, (i < n)%nat -> 0 <= f i) -> Sum rops k f <= Sum rops n f.
Proof.
  induction n as [|n IH]; intros k f Hk Hf; [replace k with 0%nat by lia; lra|]. destruct (Nat.eq_dec k (S n)) as [->|N]; [lra|]. eapply Rle_trans; [apply (IH k f); [lia|intros i Hi; apply Hf; lia]|]. cbn [Sum rops add]. specialize (Hf n ltac:(lia)). lra.
Qed.
Lemma sum_pos : forall n (f : nat -> R), (forall i, (i < n)%nat -> 0 <= f i) -> 0 <= Sum rops n f.
Proof. intros n f H. apply (partial_sum n 0 f); [lia|exact H]. Qed.
Section Tensors.
Context (most : R) (count : nat) (Hb : in_bounds (most + sum_error count most)).
Lemma correlation_summed : forall (t kernel : FT) n m K p q K' f g, is_tensor t n m K f -> is_tensor kernel p q K' g -> (K <= K')%nat -> (p <= n)%nat -> (q <= m)%nat ->
  (forall i j l, (i < n)%nat -> (j < m)%nat -> (l < K)%nat -> is_number (f i j l)) -> (forall i j l, (i < p)%nat -> (j < q)%nat -> (l < K)%nat -> is_number (g i j l)) ->
  let s := fun r c l => correlation rops p q (fun i j => Rabs (number (g i j l))) (fun i j => Rabs (number (f i j l))) r c in
  (forall r c l, (r < n + 1 - p)%nat -> (c < m + 1 - q)%nat -> (l < K)%nat -> s r c l <= most) -> (p * q <= count)%nat ->
  summed_tensor (valid_correlation fops t kernel) (n + 1 - p) (m + 1 - q) K (fun r c l => correlation rops p q (fun i j => number (g i j l)) (fun i j => number (f i j l)) r c) s (fun _ => (p * q)%nat).
Proof.
  intros t kernel n m K p q K' f g (<- & <- & <- & Ht) (<- & <- & <- & Hk) HK Hp Hq Nf Ng s Ms C. unfold summed_tensor. cbn [rows cols chans valid_correlation]. rewrite !wsub_le by lia. repeat split; try reflexivity.
  intros r c l Hr Hc Hl. cbn [get valid_correlation]. specialize (Ms r c l Hr Hc Hl).
  set (zz := fun i j => number (g i j l) * number (f (r + i)%nat (c + j)%nat l)). set (ss := fun i j => Rabs (number (g i j l)) * Rabs (number (f (r + i)%nat (c + j)%nat l))).
  assert (Sp : forall i j, 0 <= ss i j) by (intros i j; apply Rmult_le_pos; apply Rabs_pos).
  set (p := rows kernel) in *. set (q := cols kernel) in *.
  assert (T : Sum rops p (fun i => Sum rops q (ss i)) <= most) by exact Ms. clear Ms.
  destruct (loop_inv (fun i x => summed x (Sum rops i (fun i => Sum rops q (zz i))) (Sum rops i (fun i => Sum rops q (ss i))) (i * q)) p
    (fun kr result => loop q 0 (fun kc result => do x <- get kernel kr kc l; do y <- get t (r + kr) (c + kc) l; Ok (add fops result (mul fops x y))) result) (zero fops)) as (x & Ex & Hx); [exact summed_zero| |].
  - intros i x Hi Hx. destruct (loop_inv (fun j y => summed y (Sum rops i (fun i => Sum rops q (zz i)) + Sum rops j (zz i)) (Sum rops i (fun i => Sum rops q (ss i)) + Sum rops j (ss i)) (i * q + j)) q
      (fun kc result => do x <- get kernel i kc l; do y <- get t (r + i) (c + kc) l; Ok (add fops result (mul fops x y))) x) as (y & Ey & Hy).
    + cbn [Sum rops zero]. rewrite !Rplus_0_r, Nat.add_0_r. exact Hx.
    + intros j y Hj Hy. rewrite Hk by lia. cbn [obind]. rewrite Ht by lia. cbn [obind]. eexists. split; [reflexivity|].
      assert (B : Sum rops i (fun i => Sum rops q (ss i)) + Sum rops (S j) (ss i) <= most). { eapply Rle_trans; [|exact T]. apply Rle_trans with (Sum rops (S i) (fun i => Sum rops q (ss i))); [cbn [Sum rops add]; apply Rplus_le_compat_l; apply (partial_sum q (S j) (ss i)); [lia|intros; apply Sp]|]. apply partial_sum; [lia|]. intros a _. apply sum_pos. intros; apply Sp. }
      assert (C' : (i * q + S j <= count)%nat). { eapply Nat.le_trans; [|exact C]. apply Nat.le_trans with (S i * q)%nat; [cbn [Nat.mul]; lia|]. apply Nat.mul_le_mono_r. lia. }
      assert (Es : Rabs (number (g i j l) * number (f (r + i)%nat (c + j)%nat l)) = ss i j) by apply Rabs_mult.
      assert (P0 : 0 <= Sum rops i (fun i => Sum rops q (ss i)) + Sum rops j (ss i)) by (apply Rplus_le_le_0_compat; apply sum_pos; [intros a _; apply sum_pos|]; intros; apply Sp).
      cbn [Sum rops add] in B |- *. cbn [fops add mul].
      pose proof (summed_product most count Hb (g i j l) (f (r + i)%nat (c + j)%nat l) (Ng i j l Hi Hj Hl) (Nf (r + i)%nat (c + j)%nat l ltac:(lia) ltac:(lia) Hl)) as Hm. rewrite Es in Hm. specialize (Hm ltac:(lra) ltac:(lia)).
      pose proof (summed_add most count Hb _ _ _ _ _ _ _ _ Hy Hm ltac:(lra) ltac:(lia)) as Ha. eapply summed_le; [| | |exact Ha]; [unfold zz; ring|ring|lia].
    + exists y. split; [exact Ey|]. cbn [Sum rops add]. eapply summed_le; [reflexivity|reflexivity| |exact Hy]. cbn [Nat.mul]. lia.
  - exists x. split; [exact Ex|exact Hx].
Qed.
Lemma add_summed : forall a b n m K z s c z' s' c', summed_tensor a n m K z s c -> summed_tensor b n m K z' s' c' -> (forall i j l, (i < n)%nat -> (j < m)%nat -> (l < K)%nat -> s i j l + s' i j l <= most) -> (forall l, (l < K)%nat -> (c l + c' l <= count)%nat) ->
  exists y, add_view fops a b = Ok y /\ summed_tensor y n m K (fun i j l => z i j l + z' i j l) (fun i j l => s i j l + s' i j l) (fun l => (c l + c' l)%nat).
Proof.
  intros a b n m K z s c z' s' c' (A1 & A2 & A3 & A) (B1 & B2 & B3 & B) M C. unfold add_view, pointwise, same_shape. rewrite A1, A2, A3, B1, B2, B3, !Nat.eqb_refl. cbn [andb]. eexists. split; [reflexivity|]. unfold summed_tensor. cbn [rows cols chans get]. repeat split; auto.
  intros i j l Hi Hj Hl. destruct (A i j l Hi Hj Hl) as (x & -> & Hx). destruct (B i j l Hi Hj Hl) as (y & -> & Hy). cbn [obind]. eexists. split; [reflexivity|]. apply (summed_add most count Hb); auto.
Qed.
Lemma to_channel_summed : forall t n m z s c d D, summed_tensor t n m 1 z s c -> (forall i j l, (i < n)%nat -> (j < m)%nat -> (l < 1)%nat -> s i j l <= most) -> (c 0%nat <= count)%nat ->
  summed_tensor (sum_to_channel fops t d D) n m D (fun i j l => if (l =? d)%nat then z i j 0%nat else 0) (fun i j l => if (l =? d)%nat then s i j 0%nat else 0) (fun l => if (l =? d)%nat then c 0%nat else 0%nat).
Proof.
  intros t n m z s c d D (A1 & A2 & A3 & A) M C. unfold summed_tensor. cbn [rows cols chans sum_to_channel get]. repeat split; auto. intros i j l Hi Hj Hl. destruct (l =? d)%nat; [|exists float0; split; [reflexivity|exact summed_zero]].
  rewrite A3. cbn [loop]. destruct (A i j 0%nat Hi Hj ltac:(lia)) as (x & -> & Hx). cbn [obind]. eexists. split; [reflexivity|]. eapply summed_le; [| | |apply (summed_add most count Hb _ _ _ _ _ _ _ _ summed_zero Hx)]; [apply Rplus_0_l|apply Rplus_0_l|reflexivity|specialize (M i j 0%nat Hi Hj ltac:(lia)); lra|exact C].
Qed.
End Tensors.

(** ** The convolution layer *)
Section Layer.
Context (most : R) (count : nat) (Hb : in_bounds (most + sum_error count most)).
Context (x : FT) (n m k D : nat) (f : nat -> nat -> nat -> F) (Tx : is_tensor x n m D f) (Nf : forall i j l, (i < n)%nat -> (j < m)%nat -> (l < D)%nat -> is_number (f i j l)) (Hn : (k <= n)%nat) (Hm : (k <= m)%nat) (HD : (1 <= D)%nat) (HC : (D * (k * k) <= count)%nat).
Definition exact_part (g : nat -> nat -> nat -> F) (r c d : nat) : R := correlation rops k k (fun i j => number (g i j d)) (fun i j => number (f i j d)) r c.
Definition size_part (g : nat -> nat -> nat -> F) (r c d : nat) : R := correlation rops k k (fun i j => Rabs (number (g i j d))) (fun i j => Rabs (number (f i j d))) r c.
Lemma size_part_pos : forall g r c d, 0 <= size_part g r c d.
Proof. intros g r c d. unfold size_part, correlation. apply sum_pos. intros i _. apply sum_pos. intros j _. cbn [rops mul]. apply Rmult_le_pos; apply Rabs_pos. Qed.
Lemma channels_summed : forall (w : FT) g, is_tensor w k k D g -> (forall i j l, (i < k)%nat -> (j < k)%nat -> (l < D)%nat -> is_number (g i j l)) ->
  (forall r c, (r < n + 1 - k)%nat -> (c < m + 1 - k)%nat -> Sum rops D (size_part g r c) <= most) ->
  exists u, conv_channels fops x w D = Ok (Some u) /\ summed_tensor u (n + 1 - k) (m + 1 - k) 1 (fun r c _ => Sum rops D (exact_part g r c)) (fun r c _ => Sum rops D (size_part g r c)) (fun _ => (D * (k * k))%nat).
Proof.
  intros w g Tw Ng M. unfold conv_channels. match goal with |- context [loop D 0 ?b None] => set (body := b) end.
  destruct (loop_inv (fun i (s : option FT) => match i with 0%nat => s = None | _ => exists u, s = Some u /\ summed_tensor u (n + 1 - k) (m + 1 - k) 1 (fun r c _ => Sum rops i (exact_part g r c)) (fun r c _ => Sum rops i (size_part g r c)) (fun _ => (i * (k * k))%nat) end) D body None) as (s & E & H).
  - reflexivity.
  - intros i s Hi Hs. unfold body.
    assert (Mi : forall a r c, (a < D)%nat -> (r < n + 1 - k)%nat -> (c < m + 1 - k)%nat -> Sum rops a (size_part g r c) + size_part g r c a <= most). { intros a r c Ha Hr Hc. eapply Rle_trans; [|apply (M r c Hr Hc)]. apply (partial_sum D (S a) (size_part g r c)); [lia|]. intros; apply size_part_pos. }
    assert (M1 : forall r c, (r < n + 1 - k)%nat -> (c < m + 1 - k)%nat -> size_part g r c i <= most). { intros r c Hr Hc. specialize (Mi i r c Hi Hr Hc). pose proof (sum_pos i (size_part g r c) (fun j _ => size_part_pos g r c j)). lra. }
    assert (Ci : (S i * (k * k) <= count)%nat) by (eapply Nat.le_trans; [|exact HC]; apply Nat.mul_le_mono_r; lia).
    pose proof (correlation_summed most count Hb _ _ _ _ _ _ _ _ _ _ (channel_tensor fops _ _ _ _ _ _ Tx Hi) (channel_tensor fops _ _ _ _ _ _ Tw Hi) (le_n _) Hn Hm) as Hc. cbv zeta in Hc.
    specialize (Hc (fun a b l Ha Hb' Hl => Nf a b i Ha Hb' Hi) (fun a b l Ha Hb' Hl => Ng a b i Ha Hb' Hi) (fun r c l Hr Hc' Hl => M1 r c Hr Hc') ltac:(cbn [Nat.mul] in Ci; lia)).
    destruct i as [|i].
    + subst s. eexists. split; [reflexivity|]. eexists. split; [reflexivity|]. destruct Hc as (C1 & C2 & C3 & C4). split; [exact C1|]. split; [exact C2|]. split; [exact C3|]. intros a b l Ha Hb' Hl. destruct (C4 a b l Ha Hb' Hl) as (v & Ev & Hv). exists v. split; [exact Ev|]. eapply summed_le; [| | |exact Hv]; [cbn [Sum rops zero add]; symmetry; apply Rplus_0_l|cbn [Sum rops zero add]; symmetry; apply Rplus_0_l|lia].
    + destruct Hs as (u & -> & Hu). destruct (add_summed most count Hb _ _ _ _ _ _ _ _ _ _ _ Hu Hc) as (v & Ev & Hv).
      * intros r c l Hr Hc' _. apply (Mi (S i) r c Hi Hr Hc').
      * intros l _. change (S (S i) * (k * k))%nat with (k * k + S i * (k * k))%nat in Ci. lia.
      * rewrite Ev. cbn [obind]. eexists. split; [reflexivity|]. eexists. split; [reflexivity|]. destruct Hv as (C1 & C2 & C3 & C4). split; [exact C1|]. split; [exact C2|]. split; [exact C3|]. intros a b l Ha Hb' Hl. destruct (C4 a b l Ha Hb' Hl) as (z & Ez & Hz). exists z. split; [exact Ez|]. eapply summed_le; [reflexivity|reflexivity| |exact Hz]. cbn [Nat.mul]. lia.
  - rewrite E. destruct D as [|D']; [lia|]. destruct H as (u & -> & Hu). exists u. auto.
Qed.
Lemma conv_summed : forall (weights : list FT) Fl g, (1 <= Fl)%nat -> length weights = Fl -> (forall l, (l < Fl)%nat -> is_tensor (nth l weights x) k k D (g l)) -> (forall q i j l, (q < Fl)%nat -> (i < k)%nat -> (j < k)%nat -> (l < D)%nat -> is_number (g q i j l)) ->
  (forall q r c, (q < Fl)%nat -> (r < n + 1 - k)%nat -> (c < m + 1 - k)%nat -> Sum rops D (size_part (g q) r c) <= most) ->
  exists u, conv_forward fops weights Fl D x = Ok u /\ summed_tensor u (n + 1 - k) (m + 1 - k) Fl (fun r c l => Sum rops D (exact_part (g l) r c)) (fun r c l => Sum rops D (size_part (g l) r c)) (fun _ => (D * (k * k))%nat).
Proof.
  intros weights Fl g HF Hl Hw Ng M. unfold conv_forward. match goal with |- context [loop Fl 0 ?b None] => set (body := b) end.
  destruct (loop_inv (fun i (s : option FT) => match i with 0%nat => s = None | _ => exists u, s = Some u /\ summed_tensor u (n + 1 - k) (m + 1 - k) Fl (fun r c l => if (l <? i)%nat then Sum rops D (exact_part (g l) r c) else 0) (fun r c l => if (l <? i)%nat then Sum rops D (size_part (g l) r c) else 0) (fun l => if (l <? i)%nat then D * (k * k) else 0)%nat end) Fl body None) as (s & E & H).
  - reflexivity.
  - intros i s Hi Hs. unfold body. rewrite (vec_at_nth _ _ x) by lia. cbn [obind]. destruct (channels_summed _ _ (Hw i Hi) (fun a b l => Ng i a b l Hi) (fun r c => M i r c Hi)) as (c & Ec & Hc). rewrite Ec. cbn [obind].
    pose proof (to_channel_summed most count Hb _ _ _ _ _ _ i Fl Hc (fun a b l Ha Hb' _ => M i a b Hi Ha Hb') HC) as Hs2. cbv beta in Hs2. destruct i as [|i].
    + subst s. eexists. split; [reflexivity|]. eexists. split; [reflexivity|]. destruct Hs2 as (C1 & C2 & C3 & C4). split; [exact C1|]. split; [exact C2|]. split; [exact C3|]. intros a b l Ha Hb' Hl'. destruct (C4 a b l Ha Hb' Hl') as (z & Ez & Hz). exists z. split; [exact Ez|]. destruct l; exact Hz.
    + destruct Hs as (u & -> & Hu). destruct (add_summed most count Hb _ _ _ _ _ _ _ _ _ _ _ Hu Hs2) as (v & Ev & Hv).
      * intros a b l Ha Hb' Hl'. specialize (M l a b Hl' Ha Hb'). cbv beta. destruct (Nat.ltb_spec l (S i)), (Nat.eqb_spec l (S i)); try lia; try lra; subst; try lra. pose proof (sum_pos D (size_part (g l) a b) (fun d _ => size_part_pos (g l) a b d)). lra.
      * intros l _. cbv beta. destruct (Nat.ltb_spec l (S i)), (Nat.eqb_spec l (S i)); lia.
      * rewrite Ev. cbn [obind]. eexists. split; [reflexivity|]. eexists. split; [reflexivity|]. destruct Hv as (C1 & C2 & C3 & C4). split; [exact C1|]. split; [exact C2|]. split; [exact C3|]. intros a b l Ha Hb' Hl'. destruct (C4 a b l Ha Hb' Hl') as (z & Ez & Hz). exists z. split; [exact Ez|]. cbv beta in Hz.
        destruct (Nat.ltb_spec l (S i)), (Nat.eqb_spec l (S i)), (Nat.ltb_spec l (S (S i))); try lia; subst; (eapply summed_le; [| | |exact Hz]; [ring|ring|lia]).
  - rewrite E. cbn [obind]. destruct Fl as [|Fl']; [lia|]. destruct H as (u & -> & Hu). exists u. split; [reflexivity|]. destruct Hu as (C1 & C2 & C3 & C4). split; [exact C1|]. split; [exact C2|]. split; [exact C3|]. intros a b l Ha Hb' Hl'. destruct (C4 a b l Ha Hb' Hl') as (z & Ez & Hz). exists z. split; [exact Ez|]. cbv beta in Hz. apply Nat.ltb_lt in Hl'. rewrite Hl' in Hz. exact Hz.
Qed.
End Layer.
