(** A concrete sorting function and concrete models, used by the examples and refutations. *)
From Coq Require Import Ascii String List Bool Arith NArith ZArith Lia Permutation Sorted.
From Verif Require Import Outcome Chars Bpe_Model Bpe_Spec.
Import ListNotations.
Open Scope N_scope.

Fixpoint u16_leb (a b : list N) : bool :=
  match a, b with
  | [], _ => true
  | _ :: _, [] => false
  | x :: a', y :: b' => (x <? y) || ((x =? y) && u16_leb a' b')
  end.

Lemma u16_leb_le a : forall b, u16_leb a b = true -> u16_le a b.
Proof.
  induction a as [|x a IH]; intros [|y b] H; cbn in H; try discriminate; try apply u16_le_nil.
  destruct (N.ltb_spec x y); [now apply u16_le_here|]. cbn in H. apply andb_true_iff in H as [H1 H2].
  apply N.eqb_eq in H1. subst. apply u16_le_later. auto.
Qed.

Lemma u16_leb_total a : forall b, u16_leb a b = false -> u16_le b a.
Proof.
  induction a as [|x a IH]; intros [|y b] H; cbn in H; try discriminate; try apply u16_le_nil.
  destruct (N.ltb_spec x y); [discriminate|]. cbn in H. destruct (N.eqb_spec x y) as [->|Hn].
  - apply u16_le_later. apply IH. exact H.
  - apply u16_le_here. lia.
Qed.

Lemma u16_le_trans a b c : u16_le a b -> u16_le b c -> u16_le a c.
Proof.
  intro H. revert c. induction H as [s|x y a b L|x a b H IH]; intros c H2.
  - constructor.
  - inversion H2; subst; [apply u16_le_here; lia|now apply u16_le_here].
  - inversion H2; subst; [now apply u16_le_here|apply u16_le_later; auto].
Qed.

Fixpoint insert (e : code_pair) (t : list code_pair) : list code_pair :=
  match t with
  | [] => [e]
  | f :: r => if u16_leb (snd f) (snd e) then e :: t else f :: insert e r
  end.
Definition isort (t : list code_pair) : list code_pair := fold_right insert [] t.

Lemma insert_perm e t : Permutation (insert e t) (e :: t).
Proof.
  induction t as [|f r IH]; [reflexivity|]. cbn [insert]. destruct (u16_leb (snd f) (snd e)); [reflexivity|].
  eapply perm_trans; [constructor; exact IH|apply perm_swap].
Qed.

Lemma insert_sorted e t : StronglySorted (fun a b => u16_le (snd b) (snd a)) t ->
  StronglySorted (fun a b => u16_le (snd b) (snd a)) (insert e t).
Proof.
  induction 1 as [|f r Hs IH Hf]; cbn [insert]; [repeat constructor|].
  destruct (u16_leb (snd f) (snd e)) eqn:E.
  - apply u16_leb_le in E. constructor; [now constructor|]. constructor; [exact E|].
    eapply Forall_impl; [|exact Hf]. cbn. intros a Ha. eapply u16_le_trans; eauto.
  - apply u16_leb_total in E. constructor; [exact IH|].
    eapply Permutation_Forall; [apply Permutation_sym, insert_perm|]. now constructor.
Qed.

Lemma isort_sorts : sorts_by_code isort.
Proof.
  intro t. induction t as [|e t [H1 H2]]; cbn [isort fold_right].
  - split; constructor.
  - split; [|now apply insert_sorted]. eapply perm_trans; [apply insert_perm|]. now constructor.
Qed.

Definition same_order (i : nat) (v : vocab) : vocab := v.
Lemma same_order_any : any_order same_order.
Proof. intros i v. reflexivity. Qed.
Definition never (i : nat) : bool := false.


(** Trained on the tokens "xy", "xy" with delimiter [d]. *)
Definition xy_model (d : N) : bpe :=
  {| ordered_bpe_codes := [([121; d], [d + 3]); ([120; 121], [d + 2]); ([d; 120], [d + 1])];
     delimiter_code := d; next_code := d + 4 |}.
Lemma xy_96 : train same_order never isort (new_bpe 96) [lit "xy"; lit "xy"] 2 10 = Ok (xy_model 96).
Proof. vm_compute. reflexivity. Qed.
Lemma xy_256 : train same_order never isort (new_bpe 256) [lit "xy"; lit "xy"] 2 10 = Ok (xy_model 256).
Proof. vm_compute. reflexivity. Qed.
Lemma xy_reachable : reachable (xy_model 256) 1.
Proof.
  apply (reach_train same_order never isort (new_bpe 256) 0 [lit "xy"; lit "xy"] 2 10);
    [exact same_order_any|exact isort_sorts|apply reach_new; lia|exact xy_256].
Qed.

(** Trained on "aaab", "aac". *)
Definition aa_model : bpe :=
  {| ordered_bpe_codes := [([256; 97], [258]); ([97; 97], [257])]; delimiter_code := 256; next_code := 259 |}.
Lemma aa_trained : train same_order never isort (new_bpe 256) [lit "aaab"; lit "aac"] 2 10 = Ok aa_model.
Proof. vm_compute. reflexivity. Qed.
Lemma aa_reachable : reachable aa_model 1.
Proof.
  apply (reach_train same_order never isort (new_bpe 256) 0 [lit "aaab"; lit "aac"] 2 10);
    [exact same_order_any|exact isort_sorts|apply reach_new; lia|exact aa_trained].
Qed.

(** Two trainings with delimiter 0x7FFD. *)
Definition high1 : bpe := {| ordered_bpe_codes := [([0x7FFD; 120], [0x7FFE])]; delimiter_code := 0x7FFD; next_code := 0x7FFF |}.
Definition high2 : bpe := {| ordered_bpe_codes := [([0x7FFE; 121], [0x7FFF]); ([0x7FFD; 120], [0x7FFE])];
  delimiter_code := 0x7FFD; next_code := 0x8000 |}.
Lemma high1_trained : train same_order never isort (new_bpe 0x7FFD) [lit "xy"; lit "xy"] 2 1 = Ok high1.
Proof. vm_compute. reflexivity. Qed.
Lemma high2_trained : train same_order never isort high1 [lit "xy"; lit "xy"] 2 1 = Ok high2.
Proof. vm_compute. reflexivity. Qed.
Lemma high2_reachable : reachable high2 2.
Proof.
  apply (reach_train same_order never isort high1 1 [lit "xy"; lit "xy"] 2 1);
    [exact same_order_any|exact isort_sorts| |exact high2_trained].
  apply (reach_train same_order never isort (new_bpe 0x7FFD) 0 [lit "xy"; lit "xy"] 2 1);
    [exact same_order_any|exact isort_sorts|apply reach_new; lia|exact high1_trained].
Qed.

(** The first model saved, loaded, trained on a file with one more word. *)
Definition xy_loaded : bpe := {| ordered_bpe_codes := ordered_bpe_codes (xy_model 256); delimiter_code := 256; next_code := 257 |}.
Lemma xy_load : load (new_bpe 256) (save (xy_model 256)) = xy_loaded.
Proof. vm_compute. reflexivity. Qed.
