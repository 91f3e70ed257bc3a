(** C41: matrix inversion.  C44: matrix division. *)
From Coq Require Import List Arith Bool Lia Field Field_theory ZArith QArith Qcanon.
From Verif Require Import Outcome Tensor_Model Tensor_Spec Views_Proofs Algebra_Proofs MatMul_Proofs Inverse_Model Inverse_Proofs Inverse_Read.
Import ListNotations.
Local Open Scope nat_scope.

(** Every channel of [t] is the n x n identity matrix. *)
Definition is_identity {A} (o : ops A) (t : tensor A) (n k : nat) : Prop :=
  is_tensor t n n k (fun i j _ => if i =? j then one o else zero o).

(** Exact arithmetic: any field. *)
Section Field.
Context {A : Type} (o : ops A) (opp inv : A -> A).
Hypothesis F : field_theory (zero o) (one o) (add o) (mul o) (sub o) opp (div o) inv eq.
Hypothesis eqb_spec : forall x y, eqb o x y = true <-> x = y.

(** For every square tensor: either a tensor of the same shape comes back which, multiplied from
    the left and from the right, gives the identity in every channel; or "not invertible" is thrown
    and no tensor times [t] gives the identity. *)
Theorem inverse_correct : forall (t : tensor A) n k, readable t ->
  rows t = n -> cols t = n -> chans t = k -> 0 < n -> 0 < k ->
  (exists u p q, inverse o t = Ok u /\ rows u = n /\ cols u = n /\ chans u = k /\ readable u /\
     matrix_multiply o u t = Ok p /\ is_identity o p n k /\
     matrix_multiply o t u = Ok q /\ is_identity o q n k) \/
  (inverse o t = Throw /\
     forall b p, readable b -> rows b = n -> matrix_multiply o b t = Ok p -> ~ is_identity o p n k).
Proof.
  intros t n k Ht Hr Hc Hk Hn Hk0.
  pose proof Ht as Htv. apply (readable_is_tensor o) in Htv. rewrite Hr, Hc, Hk in Htv.
  destruct (inverse_cases o opp inv F eqb_spec t n Ht Hr Hc Hn ltac:(lia)) as [(u & f & E & Hu & HI)|(E & l & i & x & Hl & Hi & Hx & Hz)].
  - left. rewrite Hk in *.
    destruct (multiply_element o _ _ _ _ _ _ _ _ Hu Htv) as (p & Ep & Hp).
    destruct (multiply_element o _ _ _ _ _ _ _ _ Htv Hu) as (q & Eq & Hq).
    exists u, p, q. split; [exact E|]. pose proof Hu as (U1 & U2 & U3 & _). do 3 (split; [assumption|]).
    split; [eapply is_tensor_readable; exact Hu|]. split; [exact Ep|]. split.
    + eapply is_tensor_ext; [exact Hp|]. intros a b c Ha Hb Hc'. cbv beta. apply (HI c a b Hc' Ha Hb).
    + split; [exact Eq|]. eapply is_tensor_ext; [exact Hq|]. intros a b c Ha Hb Hc'. cbv beta. apply (HI c a b Hc' Ha Hb).
  - right. split; [exact E|]. intros b p Hb Hbr Ep Hid.
    destruct (multiply_inv _ _ _ _ Ep) as (M1 & M2 & _).
    apply (readable_is_tensor o) in Hb. rewrite Hbr, M1, M2, Hr, Hk in Hb.
    destruct (multiply_element o _ _ _ _ _ _ _ _ Hb Htv) as (p' & Ep' & Hp'). rewrite Ep in Ep'. injection Ep' as <-.
    rewrite Hk in Hl.
    apply (singular_no_inverse o opp inv F n (fun r c => val o t r c l) i x (fun r c => val o b r c l) Hi Hx (F_1_neq_0 F) Hz).
    intros r c Hrr Hcc. destruct Hp' as (_ & _ & _ & G). destruct Hid as (_ & _ & _ & G').
    specialize (G r c l Hrr Hcc Hl). specialize (G' r c l Hrr Hcc Hl). rewrite G in G'. injection G' as G'. exact G'.
Qed.
End Field.

(** The rationals are a field the theorem applies to. *)
Definition qops : ops Qc := {| zero := 0%Qc; one := 1%Qc; add := Qcplus; sub := Qcminus; mul := Qcmult;
                               div := Qcdiv; eqb := Qc_eq_bool; gtb := fun x y => match (x ?= y)%Qc with Gt => true | _ => false end |}.
Lemma qops_eqb : forall x y, eqb qops x y = true <-> x = y.
Proof.
  intros x y. cbn. unfold Qc_eq_bool. destruct (Qc_eq_dec x y); [now split|]. split; [discriminate|contradiction].
Qed.
Theorem inverse_correct_rationals : forall (t : tensor Qc) n k, readable t ->
  rows t = n -> cols t = n -> chans t = k -> 0 < n -> 0 < k ->
  (exists u p q, inverse qops t = Ok u /\ rows u = n /\ cols u = n /\ chans u = k /\ readable u /\
     matrix_multiply qops u t = Ok p /\ is_identity qops p n k /\
     matrix_multiply qops t u = Ok q /\ is_identity qops q n k) \/
  (inverse qops t = Throw /\
     forall b p, readable b -> rows b = n -> matrix_multiply qops b t = Ok p -> ~ is_identity qops p n k).
Proof. apply (inverse_correct qops Qcopp Qcinv Qcft qops_eqb). Qed.

(** The width of the tensor is not checked: extra columns are silently ignored. *)
Theorem inverse_not_square_refuted : exists t u : tensor Z, readable t /\ rows t <> cols t /\ inverse zops t = Ok u.
Proof.
  exists (uniform 1 2 1 1%Z). eexists. split; [intros r c k _; cbn; eauto|]. split; [cbn; discriminate|]. reflexivity.
Qed.

(** Dividing by the identity matrix should give the matrix back.  It does not. *)
Definition qid : tensor Qc := {| rows := 2; cols := 2; chans := 1; get := fun r c _ => Ok (if r =? c then 1%Qc else 0%Qc) |}.
Definition qa : tensor Qc := {| rows := 2; cols := 2; chans := 1; get := fun r c _ => Ok (Q2Qc (inject_Z (Z.of_nat (1 + 2 * r + c)))) |}.
Theorem matrix_divide_refuted : is_identity qops qid 2 1 /\
  exists u, matrix_divide qops qa qid = Ok u /\ ~ same u qa.
Proof.
  split. { unfold is_identity, is_tensor. cbn. repeat split; reflexivity. }
  destruct (matrix_divide qops qa qid) as [u| |] eqn:E.
  - exists u. split; [reflexivity|]. intros (_ & _ & _ & S).
    assert (G : match matrix_divide qops qa qid with Ok u => rows u = 2 /\ cols u = 2 /\ chans u = 1 /\
                  match get u 0 1 0 with Ok v => Qeq_bool (this v) 1 = true | _ => False end | _ => False end).
    { vm_compute. repeat split; reflexivity. }
    rewrite E in G. destruct G as (G1 & G2 & G3 & G).
    specialize (S 0 1 0 ltac:(unfold in_range; lia)). rewrite S in G. vm_compute in G. discriminate.
  - assert (G : match matrix_divide qops qa qid with Ok _ => True | _ => False end) by (vm_compute; exact I). rewrite E in G. contradiction.
  - assert (G : match matrix_divide qops qa qid with Ok _ => True | _ => False end) by (vm_compute; exact I). rewrite E in G. contradiction.
Qed.

(** A matrix that needs a row swap is inverted; a singular one is refused. *)
Definition of_Z2 (l : list (list Z)) : tensor Qc :=
  {| rows := 2; cols := 2; chans := 1; get := fun r c _ => Ok (Q2Qc (inject_Z (nth c (nth r l []) 0%Z))) |}.
Example ex_inverse : match inverse qops (of_Z2 [[0; 2]; [1; 1]]%Z) with
  | Ok u => match get u 0 0 0 with Ok v => Qeq_bool (this v) (-1 # 2) | _ => false end | _ => false end = true.
Proof. vm_compute. reflexivity. Qed.
Example ex_singular : match inverse qops (of_Z2 [[1; 2]; [2; 4]]%Z) with Throw => true | _ => false end = true.
Proof. vm_compute. reflexivity. Qed.

Print Assumptions inverse_correct. Print Assumptions inverse_correct_rationals.
Print Assumptions inverse_not_square_refuted. Print Assumptions matrix_divide_refuted.
