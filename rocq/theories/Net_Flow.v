(** The tensors that flow through a network whose shapes fit. *)
From Coq Require Import List Arith Bool NArith Reals Lia Permutation.
From Verif Require Import Outcome Tensor_Model Tensor_Spec Activation_Model Layer_Model Graph_Model Graph_Spec Graph_Forward Graph_Props Net_Model Net_Spec Net_Proofs Net_Vertex Net_Graph.
From Verif Require ModelFile_Model ModelFile_Spec ModelFile_Proofs ModelFile_Text.
Import ListNotations.
Local Open Scope nat_scope.

Lemma omapM_map : forall {A B} (f : A -> outcome B) (h : A -> B) l, (forall x, In x l -> f x = Ok (h x)) -> omapM f l = Ok (map h l).
Proof. intros A B f h l. induction l as [|x l IH]; intros H; [reflexivity|]. cbn [omapM map]. rewrite (H x (or_introl eq_refl)). cbn [obind]. rewrite IH; [reflexivity|]. intros y Hy. apply H. now right. Qed.
Lemma Forall2_maps : forall {A B C} (Q : B -> C -> Prop) (f : A -> B) (h : A -> C) l, (forall x, In x l -> Q (f x) (h x)) -> Forall2 Q (map f l) (map h l).
Proof. intros A B C Q f h l. induction l as [|x l IH]; intros H; constructor; [apply H; now left|apply IH; intros; apply H; now right]. Qed.
Lemma the_given : forall (hs : list nat) (xs : list T) (Q : nat -> T -> Prop) id, NoDup hs -> Forall2 Q hs xs -> In id hs -> exists x, filter (fun hx => Nat.eqb (fst hx) id) (combine hs xs) = [(id, x)] /\ Q id x.
Proof.
  intros hs xs Q id ND F I. induction F as [|h x hs xs H F IH]; [destruct I|]. apply NoDup_cons_iff in ND as [N1 N2]. cbn [combine filter fst]. destruct (Nat.eqb_spec h id) as [->|N].
  - exists x. split; [|exact H]. f_equal. assert (Z : forall l : list T, filter (fun hx => Nat.eqb (fst hx) id) (combine hs l) = []).
    { clear - N1. induction hs as [|h hs IH]; intros [|y l]; try reflexivity. cbn [combine filter fst]. destruct (Nat.eqb_spec h id) as [->|N]; [contradict N1; now left|]. apply IH. intros I. apply N1. now right. }
    apply Z.
  - apply IH; [exact N2|]. destruct I as [->|I]; [contradiction|exact I].
Qed.
Lemma nth_combine : forall {A B} (l : list A) (m : list B) i a b, nth_error l i = Some a -> nth_error m i = Some b -> In (a, b) (combine l m).
Proof. intros A B l. induction l as [|x l IH]; intros [|y m] [|i] a b H1 H2; cbn in *; try discriminate; [left; congruence|right; eapply IH; eauto]. Qed.

Section Flow.
Context (ps : list (list nat)) (d : dsl) (b : building).
Context (D : ModelFile_Proofs.described ps d) (HI : forall i v, nth_error (ModelFile_Model.vertices d) i = Some v -> nth i ps [] = [] -> ModelFile_Model.acceptsInput v = true) (B : ModelFile_Model.build d = Ok b).
Context (sh : nat -> shape) (W : well_shaped d b sh).
Context (pa : nat -> params) (F : all_fit d pa) (random : nat -> nat -> nat -> nat -> R) (training : bool) (given : list T) (G : given_fit d given).
Notation g := (network d b).

Fixpoint inputs_at (fuel : nat) (id : nat) : outcome (list T) :=
  match fuel with
  | O => UB
  | S fuel =>
      match ins g id with
      | [] => omapM (fun hx => Ok (snd hx)) (filter (fun hx => Nat.eqb (fst hx) id) (combine (heads g) given))
      | cs => omapM (fun c => do xs <- inputs_at fuel (from g c); forward_at d pa random training (from g c) xs) cs
      end
  end.
Definition val (id : nat) : T := match (do xs <- inputs_at (S id) id; forward_at d pa random training id xs) with Ok y => y | _ => {| rows := 0; cols := 0; chans := 0; get := fun _ _ _ => UB |} end.
Definition xs_of (id : nat) : list T :=
  match ins g id with [] => map snd (filter (fun hx => Nat.eqb (fst hx) id) (combine (heads g) given)) | cs => map (fun c => val (from g c)) cs end.

Lemma flow : forall id v, ModelFile_Model.vertex_at d id = Ok v ->
  (forall fuel, id < fuel -> inputs_at fuel id = Ok (xs_of id)) /\ Forall2 shaped (xs_of id) (arriving_shapes d b sh id v) /\ forward_at d pa random training id (xs_of id) = Ok (val id) /\ shaped (val id) (sh id).
Proof.
  intros id. induction id as [id IH] using lt_wf_ind. intros v E.
  assert (Q1 : forall fuel, id < fuel -> inputs_at fuel id = Ok (xs_of id)).
  { intros [|fuel] Hf; [lia|]. cbn [inputs_at]. unfold xs_of. destruct (ins g id) as [|c cs] eqn:Ei; [apply omapM_map; reflexivity|]. apply omapM_map. intros x Hx. rewrite <- Ei in Hx. apply in_ins in Hx as [Hx Ht].
    destruct (conn_range ps d b D HI B x Hx) as (R1 & R2 & _ & R3). destruct (proj1 (node_vertex ps d b D HI B (from g x))) as [u Eu]; [now apply (node_iff ps d b D HI B)|].
    rewrite Ht in R3. destruct (IH _ R3 u Eu) as (A1 & _ & A3 & _). rewrite A1 by lia. exact A3. }
  assert (Q2 : Forall2 shaped (xs_of id) (arriving_shapes d b sh id v)).
  { unfold xs_of, arriving_shapes. pose proof (head_ins ps d b D HI B id v E) as HH. pose proof (head_iff ps d b D HI id v E) as Hh. destruct (ins g id) as [|c cs] eqn:Ei.
    - rewrite (proj2 HH eq_refl). destruct (the_given (heads g) given _ id (proj1 (network_well_formed ps d b D HI B)) G (proj1 Hh (proj2 HH eq_refl))) as (x & Ex & v' & Ev' & Sx).
      rewrite Ex. rewrite E in Ev'. injection Ev' as <-. constructor; [exact Sx|constructor].
    - destruct (ModelFile_Model.acceptsInput v) eqn:A; [discriminate (proj1 HH eq_refl)|]. rewrite <- (arriving_ins d b), map_map, Ei. apply Forall2_maps. intros x Hx. rewrite <- Ei in Hx. apply in_ins in Hx as [Hx Ht].
      destruct (conn_range ps d b D HI B x Hx) as (R1 & R2 & _ & R3). destruct (proj1 (node_vertex ps d b D HI B (from g x))) as [u Eu]; [now apply (node_iff ps d b D HI B)|].
      rewrite Ht in R3. now destruct (IH _ R3 u Eu) as (_ & _ & _ & A4). }
  split; [exact Q1|]. split; [exact Q2|]. unfold val. rewrite Q1 by lia. cbn [obind]. unfold forward_at. rewrite E. cbn [obind].
  destruct (vertex_forward_ok v (pa id) (random id) training _ _ (sh id) Q2 (W id v E) (F id v E)) as (y & Ey & Y). rewrite Ey. split; [reflexivity|exact Y].
Qed.
Lemma flow_values : values g (forward_at d pa random training) given val.
Proof.
  split.
  - intros i h x Hh Hx. destruct (proj1 (node_vertex ps d b D HI B h)) as [v Ev]; [left; now apply nth_error_In in Hh|]. destruct (flow h v Ev) as (_ & _ & A & _). rewrite <- A. f_equal. unfold xs_of.
    pose proof (nth_error_In _ _ Hh) as Ih. rewrite (proj1 (proj2 (network_well_formed ps d b D HI B)) h Ih). destruct (the_given (heads g) given _ h (proj1 (network_well_formed ps d b D HI B)) G Ih) as (y & Ey & _). rewrite Ey.
    assert (I : In (h, x) (filter (fun hx => Nat.eqb (fst hx) h) (combine (heads g) given))) by (apply filter_In; split; [eapply nth_combine; eauto|apply Nat.eqb_refl]). rewrite Ey in I. destruct I as [I|[]]. now injection I as ->.
  - intros v Hv. destruct (proj1 (node_vertex ps d b D HI B v)) as [u Eu]; [now right|]. destruct (flow v u Eu) as (_ & _ & A & _). rewrite <- A. f_equal. unfold xs_of. destruct (ins g v); [contradiction|reflexivity].
Qed.
Lemma flow_outputs : outputs_fit g sh (map val (outputs g)).
Proof.
  unfold outputs_fit. rewrite <- (map_id (outputs g)) at 1. apply Forall2_maps with (f := fun x => x). intros id Hid. apply (output_iff ps d b D HI B) in Hid as (v & Ev & _). now apply (flow id v).
Qed.
Lemma given_count : length given = length (heads g).
Proof. symmetry. exact (Forall2_len _ _ _ G). Qed.
End Flow.
