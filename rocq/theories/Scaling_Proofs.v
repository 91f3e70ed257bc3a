From Coq Require Import Reals List Bool Lra Lia.
From Verif Require Import Scaling_Model Scaling_Spec.
Import ListNotations.
Open Scope R_scope.

Lemma sum_app l k : sum (l ++ k) = sum l + sum k.
Proof. unfold sum. induction l as [|x l IH]; cbn [app fold_right]; [lra|]. rewrite IH. lra. Qed.

(** Sum of squared distances from [c]. *)
Definition spread (l : list R) (c : R) : R := sum (map (fun x => (x - c) ^ 2) l).
Lemma spread_app l k c : spread (l ++ k) c = spread l c + spread k c.
Proof. unfold spread. now rewrite map_app, sum_app. Qed.
Lemma spread_shift l c d : spread l d = spread l c + 2 * (c - d) * (sum l - INR (length l) * c) + INR (length l) * (c - d) ^ 2.
Proof.
  induction l as [|x l IH]; [unfold spread; cbn; lra|]. unfold spread in *. cbn [map sum fold_right length]. fold (sum l).
  fold (sum (map (fun x => (x - d) ^ 2) l)). fold (sum (map (fun x => (x - c) ^ 2) l)). rewrite S_INR. rewrite IH. ring.
Qed.

(** State of the loop after the values [l]. *)
Definition good (s : stats) (l : list R) : Prop :=
  total_elements s = INR (length l) /\ INR (length l) * mean_result s = sum l /\ (l = [] -> mean_result s = 0) /\ M2 s = spread l (mean_result s) /\
  s_min s = fold_left Rmin l dbl_max /\ s_max s = fold_left Rmax l (- dbl_max).

Lemma good0 : good stats0 [].
Proof. unfold good, spread, stats0; cbn. repeat split; lra. Qed.

Lemma good_step s l x : good s l -> good (update_value s x) (l ++ [x]).
Proof.
  intros (Hn & Hm & H0 & HM & Hi & Ha). unfold good, update_value; cbn [mean_result s_deviation M2 total_elements s_min s_max].
  rewrite app_length. cbn [length]. rewrite Nat.add_1_r, S_INR, !fold_left_app. cbn [fold_left]. rewrite Hn, Hi, Ha.
  set (n := INR (length l)) in *. set (m := mean_result s) in *.
  assert (Hn0 : 0 <= n) by apply pos_INR.
  set (m' := m + (x - m) / (n + 1)).
  assert (Em : (n + 1) * m' = sum (l ++ [x])).
  { rewrite sum_app, <- Hm. replace (sum [x]) with x by (unfold sum; cbn; lra). unfold m'. field. lra. }
  split; [reflexivity|]. split; [exact Em|]. split; [intro E; now destruct l|]. split; [|split; reflexivity].
  rewrite spread_app. rewrite (spread_shift l m m'), HM. fold n. rewrite <- Hm.
  replace (spread [x] m') with ((x - m') ^ 2) by (unfold spread, sum; cbn; lra). unfold m'. field. lra.
Qed.

Lemma good_tensor s l t : good s l -> good (update_tensor s t) (l ++ t).
Proof.
  intro H. assert (G : good (fold_left update_value t s) (l ++ t)).
  { revert s l H. induction t as [|x t IH]; intros s l H; [now rewrite app_nil_r|]. cbn [fold_left].
    replace (l ++ x :: t) with ((l ++ [x]) ++ t) by now rewrite <- app_assoc. apply IH. now apply good_step. }
  exact G.
Qed.

Lemma good_column ts : good (column_stats ts) (concat ts).
Proof.
  unfold column_stats. assert (G : forall ts s l, good s l -> good (fold_left update_tensor ts s) (l ++ concat ts)).
  { clear. induction ts as [|t ts IH]; intros s l H; cbn [fold_left concat]; [now rewrite app_nil_r|].
    rewrite app_assoc. apply IH. now apply good_tensor. }
  apply (G ts stats0 [] good0).
Qed.

Lemma good_deviation ts : ts <> [] -> s_deviation (column_stats ts) = sqrt (M2 (column_stats ts) / total_elements (column_stats ts)).
Proof.
  intro H. destruct (exists_last H) as (ts' & t & ->). unfold column_stats. rewrite fold_left_app. reflexivity.
Qed.

Lemma fold_min l : forall m, l <> [] -> (forall x, In x l -> x <= m) -> is_minimum l (fold_left Rmin l m).
Proof.
  assert (G : forall l m, (fold_left Rmin l m = m \/ In (fold_left Rmin l m) l) /\ fold_left Rmin l m <= m /\ forall x, In x l -> fold_left Rmin l m <= x).
  { clear. induction l as [|y l IH]; intros m; cbn [fold_left]; [repeat split; auto; try lra; intros x []|].
    destruct (IH (Rmin m y)) as (H1 & H2 & H3). split; [|split].
    - destruct H1 as [H1|H1]; [|right; right; exact H1]. rewrite H1. unfold Rmin. destruct (Rle_dec m y); [left; reflexivity|right; left; reflexivity].
    - eapply Rle_trans; [exact H2|apply Rmin_l].
    - intros x [<-|Hx]; [eapply Rle_trans; [exact H2|apply Rmin_r]|now apply H3]. }
  intros m Hl Hm. destruct (G l m) as (H1 & H2 & H3). split; [|exact H3].
  destruct H1 as [H1|H1]; [|exact H1]. destruct l as [|y l]; [easy|]. left.
  specialize (H3 y (or_introl eq_refl)). specialize (Hm y (or_introl eq_refl)). rewrite H1 in *. lra.
Qed.

Lemma fold_max l : forall m, l <> [] -> (forall x, In x l -> m <= x) -> is_maximum l (fold_left Rmax l m).
Proof.
  assert (G : forall l m, (fold_left Rmax l m = m \/ In (fold_left Rmax l m) l) /\ m <= fold_left Rmax l m /\ forall x, In x l -> x <= fold_left Rmax l m).
  { clear. induction l as [|y l IH]; intros m; cbn [fold_left]; [repeat split; auto; try lra; intros x []|].
    destruct (IH (Rmax m y)) as (H1 & H2 & H3). split; [|split].
    - destruct H1 as [H1|H1]; [|right; right; exact H1]. rewrite H1. unfold Rmax. destruct (Rle_dec m y); [right; left; reflexivity|left; reflexivity].
    - eapply Rle_trans; [apply Rmax_l|exact H2].
    - intros x [<-|Hx]; [eapply Rle_trans; [apply Rmax_r|exact H2]|now apply H3]. }
  intros m Hl Hm. destruct (G l m) as (H1 & H2 & H3). split; [|exact H3].
  destruct H1 as [H1|H1]; [|exact H1]. destruct l as [|y l]; [easy|]. left.
  specialize (H3 y (or_introl eq_refl)). specialize (Hm y (or_introl eq_refl)). rewrite H1 in *. lra.
Qed.
