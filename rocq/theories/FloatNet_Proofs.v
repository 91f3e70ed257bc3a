(** Proofs about sums of products in [float]. *)
From Coq Require Import List Arith Bool ZArith Reals Lia Lra.
From Flocq Require Import Core Relative Plus_error IEEE754.BinarySingleNaN IEEE754.Binary IEEE754.Bits.
From Verif Require Import Outcome Tensor_Model Tensor_Spec F32_Model F32_Proofs Reduce_Model Activation_Model FloatNet_Model FloatNet_Spec.
From Verif Require Import Algebra_Proofs MatMul_Proofs.
Import ListNotations.
Local Open Scope R_scope.

(** ** One rounding *)
Lemma unit_is : unit_error = / 2 * bpow radix2 (- (24) + 1).
Proof. unfold unit_error. change (- (24) + 1)%Z with (Z.opp 23). rewrite bpow_opp. change (bpow radix2 23) with (IZR (2 ^ 23)). rewrite <- (Rinv_mult 2). f_equal. rewrite pow_IZR. rewrite <- mult_IZR. reflexivity. Qed.
Lemma tiny_is : tiny = / 2 * bpow radix2 (-149).
Proof. unfold tiny. change (-149)%Z with (Z.opp 149). rewrite bpow_opp. change (bpow radix2 149) with (IZR (2 ^ 149)). rewrite <- (Rinv_mult 2). f_equal. rewrite pow_IZR. rewrite <- mult_IZR. reflexivity. Qed.
Lemma max_is : max32 = 2 ^ 128.
Proof. rewrite pow_IZR. reflexivity. Qed.
Lemma unit_pos : 0 < unit_error.
Proof. unfold unit_error. apply Rinv_0_lt_compat. apply pow_lt. lra. Qed.
Lemma tiny_pos : 0 < tiny.
Proof. unfold tiny. apply Rinv_0_lt_compat. apply pow_lt. lra. Qed.
Lemma unit_small : unit_error <= / 1024.
Proof. unfold unit_error. apply Rinv_le; [lra|]. replace 1024 with (2 ^ 10) by lra. apply Rle_pow; [lra|lia]. Qed.
#[global] Opaque unit_error tiny.
Lemma rounded : forall x, exists e h, Rabs e <= unit_error /\ Rabs h <= tiny /\ rnd x = x * (1 + e) + h.
Proof. intros x. destruct (error_N_FLT radix2 (-149) 24 eq_refl (fun z => negb (Z.even z)) x) as (e & h & He & Hh & _ & E). rewrite <- unit_is in He. rewrite <- tiny_is in Hh. exists e, h. auto. Qed.
Lemma rounded_sum : forall x y, F32 x -> F32 y -> exists e, Rabs e <= unit_error /\ rnd (x + y) = (x + y) * (1 + e).
Proof.
  intros x y Fx Fy. destruct (@FLT_plus_error_N_ex radix2 (-149) 24 prec_ok (fun z => negb (Z.even z)) x y Fx Fy) as (e & He & E). exists e. split; [|exact E].
  eapply Rle_trans; [exact He|]. unfold u_ro. rewrite <- unit_is. pose proof unit_pos as U. apply (Rmult_le_reg_r (1 + unit_error)); [lra|]. unfold Rdiv. rewrite Rmult_assoc, Rinv_l by lra. rewrite Rmult_1_r. assert (0 <= unit_error * unit_error) by (apply Rmult_le_pos; lra). lra.
Qed.
Lemma rounded_size : forall x, Rabs (rnd x) <= (1 + unit_error) * Rabs x + tiny.
Proof.
  intros x. destruct (rounded x) as (e & h & He & Hh & ->). eapply Rle_trans; [apply Rabs_triang|]. rewrite Rabs_mult. apply Rplus_le_compat; [|exact Hh]. rewrite Rmult_comm. apply Rmult_le_compat_r; [apply Rabs_pos|].
  eapply Rle_trans; [apply Rabs_triang|]. rewrite Rabs_R1. lra.
Qed.
Lemma rounded_error : forall x, Rabs (rnd x - x) <= unit_error * Rabs x + tiny.
Proof.
  intros x. destruct (rounded x) as (e & h & He & Hh & ->). replace (x * (1 + e) + h - x) with (e * x + h) by ring. eapply Rle_trans; [apply Rabs_triang|]. rewrite Rabs_mult. apply Rplus_le_compat; [|exact Hh]. apply Rmult_le_compat_r; [apply Rabs_pos|exact He].
Qed.
Lemma sum_rounded_error : forall x y, F32 x -> F32 y -> Rabs (rnd (x + y) - (x + y)) <= unit_error * Rabs (x + y).
Proof. intros x y Fx Fy. destruct (rounded_sum x y Fx Fy) as (e & He & ->). replace ((x + y) * (1 + e) - (x + y)) with (e * (x + y)) by ring. rewrite Rabs_mult. apply Rmult_le_compat_r; [apply Rabs_pos|exact He]. Qed.

Lemma float0_is : is_number float0 /\ number float0 = 0.
Proof. split; reflexivity. Qed.

(** ** Sums of products *)
Notation SumR := (Sum rops).
Lemma grow : forall n, 1 <= (1 + unit_error) ^ n.
Proof. intros n. apply pow_R1_Rle. pose proof unit_pos. lra. Qed.
Lemma sum_error_S : forall n s x, 0 <= s -> 0 <= x -> sum_error n s * (1 + unit_error) + unit_error * s + (unit_error * x + tiny) * (1 + unit_error) + unit_error * x <= sum_error (S n) (s + x).
Proof.
  intros n s x Hs Hx. unfold sum_error. rewrite S_INR. replace (S n + 1)%nat with (S (n + 1)) by lia. set (u := unit_error). set (p := (1 + u) ^ n). assert (E : (1 + u) ^ (n + 1) = p * (1 + u)) by (rewrite pow_add, pow_1; reflexivity). rewrite <- !tech_pow_Rmult, E. fold p.
  pose proof unit_pos as U. fold u in U. pose proof (grow n) as G. fold u in G. fold p in G. pose proof tiny_pos as Y. pose proof (pos_INR n) as N. set (t := tiny) in *. clearbody u p t.
  assert (A : 0 <= (p - 1) * ((1 + u) * (1 + u) * x)) by (apply Rmult_le_pos; [lra|]; apply Rmult_le_pos; [apply Rmult_le_pos; lra|exact Hx]).
  assert (B : 0 <= (p - 1) * ((1 + u) * t)) by (apply Rmult_le_pos; [lra|]; apply Rmult_le_pos; lra).
  match goal with |- ?l <= ?r => replace r with (l + (p - 1) * ((1 + u) * (1 + u) * x) + (p - 1) * ((1 + u) * t)) by ring end. lra.
Qed.
Lemma sum_error_pos : forall n s, 0 <= s -> 0 <= sum_error n s.
Proof.
  intros n s Hs. unfold sum_error. pose proof (grow (n + 1)). pose proof (grow n). pose proof tiny_pos. pose proof (pos_INR n). apply Rplus_le_le_0_compat; [apply Rmult_le_pos; lra|]. apply Rmult_le_pos; [apply Rmult_le_pos; lra|lra].
Qed.
Lemma sizes_pos : forall n f g, 0 <= sizes n f g.
Proof. induction n as [|n IH]; intros f g; [apply Rle_refl|]. cbn [sizes Sum add rops]. apply Rplus_le_le_0_compat; [apply IH|apply Rabs_pos]. Qed.
Lemma sum_size : forall n f g, Rabs (SumR n (fun i => f i * g i)) <= sizes n f g.
Proof. induction n as [|n IH]; intros f g; [cbn; rewrite Rabs_R0; apply Rle_refl|]. cbn [sizes Sum add rops]. eapply Rle_trans; [apply Rabs_triang|]. apply Rplus_le_compat_r. apply IH. Qed.
Lemma sum_error_le : forall n m s t, (n <= m)%nat -> 0 <= s <= t -> s + sum_error n s <= t + sum_error m t.
Proof.
  intros n m s t Hn [Hs Ht]. unfold sum_error. assert (G : (1 + unit_error) ^ n <= (1 + unit_error) ^ m) by (apply Rle_pow; [pose proof unit_pos; lra|exact Hn]). assert (G' : (1 + unit_error) ^ (n + 1) <= (1 + unit_error) ^ (m + 1)) by (apply Rle_pow; [pose proof unit_pos; lra|lia]).
  pose proof (grow (n + 1)) as G1. pose proof (grow n) as G2. pose proof tiny_pos as Y. pose proof (le_INR _ _ Hn) as N. pose proof (pos_INR n) as N0.
  match goal with |- s + ((?a - 1) * s + ?b) <= t + ((?c - 1) * t + ?d) => cut (a * s + b <= c * t + d); [lra|] end.
  apply Rplus_le_compat; [apply Rmult_le_compat; lra|]. apply Rmult_le_compat_r; [lra|]. apply Rmult_le_compat; lra.
Qed.
(** The sum the code computes is a number, and near the exact one. *)
Lemma float_products : forall n (f g : nat -> F), (forall i, (i < n)%nat -> is_number (f i) /\ is_number (g i)) -> in_bounds (sizes n (fun i => number (f i)) (fun i => number (g i)) + sum_error n (sizes n (fun i => number (f i)) (fun i => number (g i)))) ->
  is_number (Sum fops n (fun i => fmul (f i) (g i))) /\ Rabs (number (Sum fops n (fun i => fmul (f i) (g i))) - SumR n (fun i => number (f i) * number (g i))) <= sum_error n (sizes n (fun i => number (f i)) (fun i => number (g i))).
Proof.
  induction n as [|n IH]; intros f g H Hb.
  - split; [reflexivity|]. cbn [Sum rops zero fops]. rewrite (proj2 float0_is), Rminus_0_r, Rabs_R0. apply sum_error_pos. apply Rle_refl.
  - set (s := sizes n (fun i => number (f i)) (fun i => number (g i))) in *. set (x := number (f n) * number (g n)) in *. assert (Es : sizes (S n) (fun i => number (f i)) (fun i => number (g i)) = s + Rabs x) by reflexivity. rewrite Es in *.
    assert (Hs : 0 <= s) by apply sizes_pos. assert (Hx : 0 <= Rabs x) by apply Rabs_pos.
    destruct (IH f g) as [N E]; [intros i Hi; apply H; lia|fold s; unfold in_bounds in *; eapply Rle_lt_trans; [|exact Hb]; apply sum_error_le; [lia|lra]|]. fold s in E. clear IH.
    destruct (H n ltac:(lia)) as [Nf Ng]. cbn [Sum fops add]. cbn [Sum rops add]. fold x.
    set (q := Sum fops n (fun i => fmul (f i) (g i))) in *. set (z := SumR n (fun i => number (f i) * number (g i))) in *.
    assert (Hz : Rabs z <= s) by apply sum_size.
    pose proof (sum_error_S n s (Rabs x) Hs Hx) as St. pose proof unit_pos as U. pose proof tiny_pos as Y. pose proof (sum_error_pos n s Hs) as P0. pose proof (sum_error_pos (S n) (s + Rabs x) ltac:(lra)) as P1.
    set (e := sum_error n s) in *. set (e' := sum_error (S n) (s + Rabs x)) in *. clearbody e e'. unfold in_bounds in Hb. rewrite <- max_is in Hb.
    assert (A0 : 0 <= unit_error * s) by (apply Rmult_le_pos; lra). assert (A1 : 0 <= e * unit_error) by (apply Rmult_le_pos; lra). assert (A2 : 0 <= (unit_error * Rabs x + tiny) * unit_error) by (apply Rmult_le_pos; [apply Rplus_le_le_0_compat; [apply Rmult_le_pos; lra|lra]|lra]). assert (A3 : 0 <= unit_error * Rabs x) by (apply Rmult_le_pos; lra).
    destruct (fmul_correct (f n) (g n) Nf Ng) as [Vm Fm]. { fold (number (f n)) (number (g n)). fold x. eapply Rle_lt_trans; [apply rounded_size|]. lra. }
    fold (number (f n)) (number (g n)) in Vm. fold x in Vm. fold (number (fmul (f n) (g n))) in Vm. set (m := fmul (f n) (g n)) in *. pose proof (rounded_error x) as Em. rewrite <- Vm in Em.
    assert (Fq : F32 (number q)) by apply val_format. assert (Fm' : F32 (number m)) by apply val_format. pose proof (sum_rounded_error (number q) (number m) Fq Fm') as Ea.
    assert (Sz : Rabs (number q + number m) <= (s + e) + (Rabs x + (unit_error * Rabs x + tiny))).
    { replace (number q + number m) with ((z + (number q - z)) + (x + (number m - x))) by ring. eapply Rle_trans; [apply Rabs_triang|]. apply Rplus_le_compat; (eapply Rle_trans; [apply Rabs_triang|]); lra. }
    assert (Er : Rabs (rnd (number q + number m) - (z + x)) <= e').
    { replace (rnd (number q + number m) - (z + x)) with ((rnd (number q + number m) - (number q + number m)) + ((number q - z) + (number m - x))) by ring. eapply Rle_trans; [apply Rabs_triang|].
      assert (Rabs (number q - z + (number m - x)) <= e + (unit_error * Rabs x + tiny)) by (eapply Rle_trans; [apply Rabs_triang|lra]).
      assert (unit_error * Rabs (number q + number m) <= unit_error * ((s + e) + (Rabs x + (unit_error * Rabs x + tiny)))) by (apply Rmult_le_compat_l; lra). lra. }
    destruct (fadd_correct q m N Fm) as [Va Fa]. { fold (number q) (number m). replace (rnd (number q + number m)) with ((z + x) + (rnd (number q + number m) - (z + x))) by ring. eapply Rle_lt_trans; [apply Rabs_triang|]. pose proof (Rabs_triang z x). lra. }
    split; [exact Fa|]. unfold number at 1. rewrite Va. exact Er.
Qed.

(** ** Tensors of numbers *)
Definition element (t : FT) (i j l : nat) : F := match get t i j l with Ok x => x | _ => float0 end.
Lemma numbers_tensor : forall t r c k f, numbers t r c k f -> is_tensor t r c k (element t) /\ forall i j l, (i < r)%nat -> (j < c)%nat -> (l < k)%nat -> is_number (element t i j l) /\ number (element t i j l) = f i j l.
Proof.
  intros t r c k f (<- & <- & <- & H). split.
  - unfold is_tensor. repeat split; try reflexivity. intros i j l Hi Hj Hl. unfold element. destruct (H i j l Hi Hj Hl) as (x & E & _). now rewrite E.
  - intros i j l Hi Hj Hl. unfold element. destruct (H i j l Hi Hj Hl) as (x & E & N & V). rewrite E. auto.
Qed.
Lemma tensor_numbers : forall t r c k f, is_tensor t r c k f -> (forall i j l, (i < r)%nat -> (j < c)%nat -> (l < k)%nat -> is_number (f i j l)) -> numbers t r c k (fun i j l => number (f i j l)).
Proof. intros t r c k f (A & B & C & H) N. unfold numbers. repeat split; try assumption. intros i j l Hi Hj Hl. exists (f i j l). auto. Qed.
Lemma sizes_ext : forall n f g f' g', (forall i, (i < n)%nat -> f i = f' i /\ g i = g' i) -> sizes n f g = sizes n f' g'.
Proof. induction n as [|n IH]; intros f g f' g' H; [reflexivity|]. unfold sizes in *. cbn [Sum]. rewrite (IH f g f' g') by (intros i Hi; apply H; lia). destruct (H n ltac:(lia)) as [-> ->]. reflexivity. Qed.
Lemma products_ext : forall n (f g f' g' : nat -> R), (forall i, (i < n)%nat -> f i = f' i /\ g i = g' i) -> SumR n (fun i => f i * g i) = SumR n (fun i => f' i * g' i).
Proof. induction n as [|n IH]; intros f g f' g' H; [reflexivity|]. cbn [Sum]. rewrite (IH f g f' g') by (intros i Hi; apply H; lia). destruct (H n ltac:(lia)) as [-> ->]. reflexivity. Qed.
Lemma float_multiply_is : forall a b n m p k f g, numbers a n m k f -> numbers b m p k g ->
  (forall i j l, (i < n)%nat -> (j < p)%nat -> (l < k)%nat -> in_bounds (sizes m (fun x => f i x l) (fun x => g x j l) + sum_error m (sizes m (fun x => f i x l) (fun x => g x j l)))) ->
  exists y h, matrix_multiply fops a b = Ok y /\ numbers y n p k h /\
    forall i j l, (i < n)%nat -> (j < p)%nat -> (l < k)%nat ->
      Rabs (h i j l - Sum rops m (fun x => f i x l * g x j l)) <= sum_error m (sizes m (fun x => f i x l) (fun x => g x j l)).
Proof.
  intros a b n m p k f g Ha Hb B. destruct (numbers_tensor _ _ _ _ _ Ha) as [Ta Na]. destruct (numbers_tensor _ _ _ _ _ Hb) as [Tb Nb]. destruct (multiply_element fops a b n m p k _ _ Ta Tb) as (y & Ey & Ty).
  assert (Q : forall i j l, (i < n)%nat -> (j < p)%nat -> (l < k)%nat -> is_number (Sum fops m (fun x => fmul (element a i x l) (element b x j l))) /\ Rabs (number (Sum fops m (fun x => fmul (element a i x l) (element b x j l))) - Sum rops m (fun x => f i x l * g x j l)) <= sum_error m (sizes m (fun x => f i x l) (fun x => g x j l))).
  { intros i j l Hi Hj Hl. assert (X : forall x, (x < m)%nat -> f i x l = number (element a i x l) /\ g x j l = number (element b x j l)) by (intros x Hx; split; symmetry; [apply Na|apply Nb]; assumption).
    specialize (B i j l Hi Hj Hl). rewrite (sizes_ext _ _ _ _ _ X) in B |- *. rewrite (products_ext m (fun x => f i x l) (fun x => g x j l) _ _ X). apply float_products; [|exact B]. intros x Hx. split; [apply Na|apply Nb]; assumption. }
  exists y. eexists. split; [exact Ey|]. split; [apply (tensor_numbers _ _ _ _ _ Ty)|]; cbv beta; intros i j l Hi Hj Hl; apply (Q i j l Hi Hj Hl).
Qed.
(** ** One more sum *)
Lemma float_add_is : forall a b n m k f g, numbers a n m k f -> numbers b n m k g -> (forall i j l, (i < n)%nat -> (j < m)%nat -> (l < k)%nat -> in_bounds ((1 + unit_error) * Rabs (f i j l + g i j l))) ->
  exists y h, add_view fops a b = Ok y /\ numbers y n m k h /\ forall i j l, (i < n)%nat -> (j < m)%nat -> (l < k)%nat -> Rabs (h i j l - (f i j l + g i j l)) <= unit_error * Rabs (f i j l + g i j l).
Proof.
  intros a b n m k f g Ha Hb B. destruct (numbers_tensor _ _ _ _ _ Ha) as [Ta Na]. destruct (numbers_tensor _ _ _ _ _ Hb) as [Tb Nb]. destruct (pointwise_element fadd a b n m k _ _ Ta Tb) as (y & Ey & Ty).
  assert (Q : forall i j l, (i < n)%nat -> (j < m)%nat -> (l < k)%nat -> is_number (fadd (element a i j l) (element b i j l)) /\ Rabs (number (fadd (element a i j l) (element b i j l)) - (f i j l + g i j l)) <= unit_error * Rabs (f i j l + g i j l)).
  { intros i j l Hi Hj Hl. destruct (Na i j l Hi Hj Hl) as [N1 V1]. destruct (Nb i j l Hi Hj Hl) as [N2 V2]. specialize (B i j l Hi Hj Hl). unfold in_bounds in B. rewrite <- max_is in B. rewrite <- V1, <- V2 in B |- *.
    pose proof (sum_rounded_error (number (element a i j l)) (number (element b i j l)) (val_format _) (val_format _)) as Ea.
    destruct (fadd_correct _ _ N1 N2) as [V Fi]; [|split; [exact Fi|]; unfold number at 1; rewrite V; exact Ea].
    fold (number (element a i j l)) (number (element b i j l)). set (s := number (element a i j l) + number (element b i j l)) in *. replace (rnd s) with (s + (rnd s - s)) by ring. eapply Rle_lt_trans; [apply Rabs_triang|]. lra. }
  exists y. eexists. split; [exact Ey|]. split; [apply (tensor_numbers _ _ _ _ _ Ty)|]; cbv beta; intros i j l Hi Hj Hl; apply (Q i j l Hi Hj Hl).
Qed.
