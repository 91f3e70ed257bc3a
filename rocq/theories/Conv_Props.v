(** C42: correlations, convolutions and the gradients of the convolution layer. *)
From Coq Require Import List Arith Bool Lia Ring ZArith.
From Verif Require Import Outcome Tensor_Model Tensor_Spec Views_Proofs Algebra_Proofs MatMul_Proofs Conv_Spec ConvLayer_Model Conv_Proofs.
Import ListNotations.
Local Open Scope nat_scope.

(** The shape of a full convolution is image + kernel - 1 only for kernels up to 3 wide. *)
Theorem full_convolution_shape : forall A (o : ops A) (t kernel : tensor A), 1 <= rows t -> 1 <= cols t ->
  1 <= rows kernel -> 1 <= cols kernel ->
  (rows (full_convolve o t kernel) = rows t + rows kernel - 1 <-> rows kernel <= 3) /\
  (cols (full_convolve o t kernel) = cols t + cols kernel - 1 <-> cols kernel <= 3).
Proof.
  intros A o t kernel Hr Hc Hkr Hkc. unfold full_convolve, full_correlation. cbn [rows cols valid_correlation zero_pad rotate180].
  assert (H : forall n k, 1 <= n -> 1 <= k -> (wsub (n + (full_padding k + full_padding k) + 1) k = n + k - 1 <-> k <= 3)).
  { intros n k Hn Hk. destruct (le_lt_dec k 3).
    - rewrite full_padding_small by lia. rewrite wsub_le by lia. lia.
    - pose proof (full_padding_bounds k ltac:(lia)). rewrite wsub_le by lia. lia. }
  split; apply H; assumption.
Qed.

(** Exact arithmetic: any commutative ring. *)
Section Ring.
Context {A : Type} (o : ops A) (opp : A -> A).
Hypothesis R : ring_theory (zero o) (one o) (add o) (mul o) (sub o) opp eq.
Add Ring Aring : R.
Notation T := (tensor A).

(** The valid correlation of an n x m image with a p x q kernel that fits in it. *)
Theorem valid_correlation_is_the_sum : forall (t kernel : T) n m K p q f g,
  is_tensor t n m K f -> is_tensor kernel p q K g -> p <= n -> q <= m ->
  is_tensor (valid_correlation o t kernel) (n - p + 1) (m - q + 1) K
    (fun r c l => correlation o p q (fun i j => g i j l) (fun i j => f i j l) r c).
Proof.
  intros t kernel n m K p q f g Ht Hk Hp Hq. replace (n - p + 1) with (n + 1 - p) by lia. replace (m - q + 1) with (m + 1 - q) by lia.
  now apply (correlation_element o opp R _ _ _ _ _ _ _ _ _ _ Ht Hk (le_n _)).
Qed.

(** The full convolution, for kernels up to 3 x 3. *)
Theorem full_convolution_is_the_sum_partial : forall (t kernel : T) n m K p q f g, 1 <= n -> 1 <= m ->
  is_tensor t n m K f -> is_tensor kernel p q K g -> 1 <= p <= 3 -> 1 <= q <= 3 ->
  is_tensor (full_convolve o t kernel) (n + p - 1) (m + q - 1) K
    (fun r c l => convolution o n m p q (fun i j => g i j l) (fun i j => f i j l) r c).
Proof. exact (full_convolve_element o opp R). Qed.

(** [weights] are Fl filters of k x k x D, [x] is an n x m x D input the filters fit in. *)
Definition layer (weights : list T) (n m k D Fl : nat) (g : nat -> nat -> nat -> nat -> A) : Prop :=
  1 <= k /\ k <= n /\ k <= m /\ 1 <= D /\ 1 <= Fl /\ length weights = Fl /\
  forall l d, l < Fl -> is_tensor (nth l weights d) k k D (g l).

(** Output channel l is the sum over the input channels of their correlation with filter l. *)
Theorem conv_forward_is_the_sum : forall (weights : list T) (x : T) n m k D Fl f g,
  layer weights n m k D Fl g -> is_tensor x n m D f ->
  exists u, conv_forward o weights Fl D x = Ok u /\ is_tensor u (n - k + 1) (m - k + 1) Fl
    (fun r c l => Sum o D (fun d => correlation o k k (fun i j => g l i j d) (fun i j => f i j d) r c)).
Proof.
  intros weights x n m k D Fl f g (Hk & Hn & Hm & HD & HF & Hl & Hw) Hx.
  replace (n - k + 1) with (n + 1 - k) by lia. replace (m - k + 1) with (m + 1 - k) by lia.
  apply (conv_forward_element o opp R); auto.
Qed.

(** Weight gradient (no regularisation, kernels up to 3 x 3): with y the forward pass of the same
    input through a change dw of the weights, the sum of err * y is the sum of dw * changes; so the
    queued changes are the derivative of (err . output) by the weights. *)
Theorem conv_weight_gradient_partial : forall (weights dweights : list T) (x err : T) n m k D Fl f g dg e,
  layer weights n m k D Fl g -> layer dweights n m k D Fl dg -> k <= 3 ->
  is_tensor x n m D f -> is_tensor err (n - k + 1) (m - k + 1) Fl e ->
  exists u changes y ch v,
    conv_backward o weights Fl n m D None x err = Ok (u, changes) /\
    conv_forward o dweights Fl D x = Ok y /\
    is_tensor y (n - k + 1) (m - k + 1) Fl v /\
    length changes = Fl /\ (forall l d, l < Fl -> is_tensor (nth l changes d) k k D (ch l)) /\
    Sum o Fl (fun l => inner o (n - k + 1) (m - k + 1) (fun i j => e i j l) (fun i j => v i j l)) =
    Sum o Fl (fun l => Sum o D (fun d => inner o k k (fun i j => dg l i j d) (fun i j => ch l i j d))).
Proof.
  intros weights dweights x err n m k D Fl f g dg e (Hk & Hn & Hm & HD & HF & Hl & Hw) (_ & _ & _ & _ & _ & Hl' & Hw') Hk3 Hx He.
  replace (n - k + 1) with (n + 1 - k) in * by lia. replace (m - k + 1) with (m + 1 - k) in * by lia.
  destruct (conv_backward_element o opp R weights x err n m k D Fl None f g e ltac:(lia) Hn Hm Hx Hl (fun l => Hw l x) He) as (u & ch & E & _ & Lc & Hc).
  destruct (conv_forward_element o opp R dweights x n m k D Fl f dg HD HF Hn Hm Hx Hl' (fun l => Hw' l x)) as (y & Ey & Hy).
  exists u, ch, y. eexists. eexists. split; [exact E|]. split; [exact Ey|]. split; [exact Hy|]. split; [exact Lc|].
  split. { intros l d Hlt. rewrite (nth_indep ch d x) by lia. apply Hc. exact Hlt. }
  cbv beta. apply Sum_ext. intros l _. unfold change.
  transitivity (Sum o D (fun d => inner o (n + 1 - k) (m + 1 - k) (fun i j => e i j l) (correlation o k k (fun i j => dg l i j d) (fun i j => f i j d)))).
  - symmetry. unfold inner. rewrite (Sum_swap o opp R). apply Sum_ext. intros i _. rewrite (Sum_swap o opp R). apply Sum_ext. intros j _.
    now rewrite (Sum_mul_l o opp R).
  - apply Sum_ext. intros d _. apply (adjoint_kernel o opp R).
Qed.

(** Input gradient, for one input channel and kernels up to 3 x 3: the error handed back has the
    shape of the input and is the derivative of (err . output) by the input. *)
Theorem conv_input_gradient_partial : forall (weights : list T) (x h err : T) n m k Fl l2 f fh g e,
  layer weights n m k 1 Fl g -> k <= 3 ->
  is_tensor x n m 1 f -> is_tensor h n m 1 fh -> is_tensor err (n - k + 1) (m - k + 1) Fl e ->
  exists u changes y v w,
    conv_backward o weights Fl n m 1 l2 x err = Ok (u, changes) /\
    conv_forward o weights Fl 1 h = Ok y /\
    is_tensor y (n - k + 1) (m - k + 1) Fl v /\ is_tensor u n m 1 w /\
    Sum o Fl (fun l => inner o (n - k + 1) (m - k + 1) (fun i j => e i j l) (fun i j => v i j l)) =
    inner o n m (fun i j => fh i j 0) (fun i j => w i j 0).
Proof.
  intros weights x h err n m k Fl l2 f fh g e (Hk & Hn & Hm & HD & HF & Hl & Hw) Hk3 Hx Hh He.
  replace (n - k + 1) with (n + 1 - k) in * by lia. replace (m - k + 1) with (m + 1 - k) in * by lia.
  destruct (conv_backward_element o opp R weights x err n m k 1 Fl l2 f g e ltac:(lia) Hn Hm Hx Hl (fun l => Hw l x) He) as (u & ch & E & Hu & _ & _).
  destruct (conv_forward_element o opp R weights h n m k 1 Fl fh g HD HF Hn Hm Hh Hl (fun l => Hw l h)) as (y & Ey & Hy).
  exists u, ch, y. eexists. eexists. split; [exact E|]. split; [exact Ey|]. split; [exact Hy|]. split; [exact Hu|]. cbv beta.
  transitivity (Sum o Fl (fun l => inner o n m (fun i j => fh i j 0) (fun p q => share o n m k (g l) (fun i j => e i j l) p q 0))).
  - apply Sum_ext. intros l _. unfold share. rewrite <- (adjoint o opp R) by lia.
    unfold inner. apply Sum_ext. intros i _. apply Sum_ext. intros j _. cbn [Sum]. ring.
  - unfold inner. rewrite (Sum_swap o opp R). apply Sum_ext. intros i _. rewrite (Sum_swap o opp R). apply Sum_ext. intros j _.
    cbn [Sum]. rewrite (Sum_mul_l o opp R). ring.
Qed.

(** With several input channels the error handed back is one channel: all channels are added up. *)
Theorem conv_gradient_channels_refuted : forall (weights : list T) (x err : T) n m k D Fl l2 f g e,
  layer weights n m k D Fl g -> k <= 3 -> 2 <= D ->
  is_tensor x n m D f -> is_tensor err (n - k + 1) (m - k + 1) Fl e ->
  exists u changes, conv_backward o weights Fl n m D l2 x err = Ok (u, changes) /\ chans u = 1 /\ chans u <> chans x.
Proof.
  intros weights x err n m k D Fl l2 f g e (Hk & Hn & Hm & HD & HF & Hl & Hw) Hk3 HD2 Hx He.
  replace (n - k + 1) with (n + 1 - k) in * by lia. replace (m - k + 1) with (m + 1 - k) in * by lia.
  destruct (conv_backward_element o opp R weights x err n m k D Fl l2 f g e ltac:(lia) Hn Hm Hx Hl (fun l => Hw l x) He) as (u & ch & E & Hu & _ & _).
  exists u, ch. split; [exact E|]. destruct Hu as (_ & _ & U & _). destruct Hx as (_ & _ & X & _). lia.
Qed.
End Ring.

(** With a kernel of size 4 or more the backward pass always throws. *)
Theorem conv_gradient_kernel_refuted : forall A (o : ops A) (weights : list (tensor A)) (x err : tensor A) n m k D Fl l2 g e,
  layer weights n m k D Fl g -> 4 <= k -> is_tensor err (n - k + 1) (m - k + 1) Fl e ->
  conv_backward o weights Fl n m D l2 x err = Throw.
Proof.
  intros A o weights x err n m k D Fl l2 g e (Hk & Hn & Hm & HD & HF & Hl & Hw) Hk4 He.
  unfold conv_backward. destruct Fl as [|Fl]; [lia|]. cbn [loop]. rewrite (vec_at_nth _ _ x) by lia. cbn [obind].
  unfold conv_backward_filter. destruct D as [|D]; [lia|]. cbn [loop].
  match goal with |- context [add_view o ?a ?b] => assert (E : add_view o a b = Throw) end.
  { unfold add_view, pointwise.
    match goal with |- context [same_shape ?a ?b] => replace (same_shape a b) with false; [reflexivity|] end.
    symmetry. unfold same_shape. rewrite !andb_false_iff. left. right. apply Nat.eqb_neq. intros Eq.
    cbn [rows uniform sum_to_channel] in Eq.
    unfold full_convolve, full_correlation in Eq. cbn [rows valid_correlation zero_pad rotate180 channel_to] in Eq.
    destruct He as (E1 & _). destruct (Hw 0 x ltac:(lia)) as (W1 & _). rewrite E1, W1 in Eq.
    pose proof (full_padding_bounds k Hk4). rewrite wsub_le in Eq by lia. lia. }
  rewrite E. reflexivity.
Qed.

(** A 4 x 4 image with two channels, two 3 x 3 filters. *)
Definition exx : tensor Z := {| rows := 4; cols := 4; chans := 1; get := fun r c k => Ok (Z.of_nat (r * 4 + c + 16 * k)) |}.
Definition exw : tensor Z := {| rows := 3; cols := 3; chans := 1; get := fun r c k => Ok (if r =? c then 1%Z else 0%Z) |}.
Definition exe : tensor Z := {| rows := 2; cols := 2; chans := 2; get := fun r c k => Ok (Z.of_nat (1 + r + c + k)) |}.
Example ex_layer : layer [exw; exw] 4 4 3 1 2 (fun _ i j _ => if i =? j then 1%Z else 0%Z).
Proof.
  unfold layer. do 5 (split; [lia|]). split; [reflexivity|]. intros l d Hl. destruct l as [|[|l]]; [| |lia]; cbn [nth]; unfold is_tensor; cbn; auto.
Qed.
Example ex_forward : match conv_forward zops [exw; exw] 2 1 exx with Ok u => (rows u, chans u, get u 1 0 1) | _ => (0, 0, UB) end = (2, 2, Ok 27%Z).
Proof. vm_compute. reflexivity. Qed.
Example ex_backward : match conv_backward zops [exw; exw] 2 4 4 1 None exx exe with
  | Ok (u, [c0; c1]) => (rows u, chans u, get u 1 1 0, get c0 0 1 0) | _ => (0, 0, UB, UB) end = (4, 1, Ok 10%Z, Ok 33%Z).
Proof. lazy. reflexivity. Qed.

Print Assumptions full_convolution_shape. Print Assumptions valid_correlation_is_the_sum.
Print Assumptions full_convolution_is_the_sum_partial. Print Assumptions conv_forward_is_the_sum.
Print Assumptions conv_weight_gradient_partial. Print Assumptions conv_input_gradient_partial.
Print Assumptions conv_gradient_channels_refuted. Print Assumptions conv_gradient_kernel_refuted.
