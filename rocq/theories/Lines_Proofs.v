From Coq Require Import Ascii String List Bool Lia.
From Verif Require Import Chars Lines_Model.
Import ListNotations.

Lemma lines_of_app_line l s : ~ In NL l -> lines_of (l ++ NL :: s) = l :: lines_of s.
Proof.
  induction l as [|c l IH]; intro H; cbn [lines_of app].
  - now rewrite ceq_refl.
  - destruct (ceq_spec c NL) as [->|N]; [exfalso; apply H; now left|].
    rewrite IH; auto. intro; apply H; now right.
Qed.

Lemma lines_of_write ls : Forall (fun l => ~ In NL l) ls -> lines_of (write_lines ls) = ls.
Proof.
  induction 1 as [|l ls H _ IH]; [reflexivity|].
  cbn [write_lines flat_map]. rewrite <- app_assoc. cbn [app].
  rewrite lines_of_app_line by auto. unfold write_lines in IH. now rewrite IH.
Qed.

Lemma lines_of_no_nl s : Forall (fun l => ~ In NL l) (lines_of s).
Proof.
  induction s as [|c s IH]; cbn [lines_of]; [constructor|].
  destruct (ceq_spec c NL) as [->|N]; [constructor; auto|].
  destruct (lines_of s) as [|l ls].
  - constructor; [|constructor]. cbn [In]; intuition congruence.
  - inversion IH; subst. constructor; auto. cbn [In]; intuition congruence.
Qed.

Definition body (skip : bool) (f : list str) : list str := if skip then tl f else f.

Fixpoint pending (skip : bool) (rest : list (list str)) : list str :=
  match rest with
  | [] => []
  | f :: r => match body skip f with [] => [] | b => b ++ pending skip r end
  end.

Definition rep (r : line_reader) : list str :=
  if lr_has_next r then
    lr_next_line r :: (if lr_open r then lr_cur r ++ pending (lr_skip_header r) (lr_rest r) else [])
  else [].

Lemma hasNext_rep r : hasNext r = match rep r with [] => false | _ => true end.
Proof. unfold hasNext, rep. destruct (lr_has_next r); reflexivity. Qed.

Lemma nextLine_rep r l ls : rep r = l :: ls -> fst (nextLine r) = l /\ rep (snd (nextLine r)) = ls.
Proof.
  unfold rep at 1, nextLine. destruct (lr_has_next r) eqn:H; [|discriminate].
  intro E; injection E; intros E2 E1. subst l.
  destruct (lr_open r) eqn:O; cbn [negb].
  - destruct (lr_cur r) as [|c cur].
    + destruct (lr_rest r) as [|f rest]; cbn [pending] in E2; cbn.
      * auto.
      * fold (body (lr_skip_header r) f).
        destruct (body (lr_skip_header r) f) as [|b bs]; cbn; split; auto.
    + split; [reflexivity|]. cbn. unfold rep; cbn. now rewrite <- E2.
  - cbn. auto.
Qed.

Lemma read_lines_rep fuel r : length (rep r) <= fuel -> read_lines fuel r = rep r.
Proof.
  revert r; induction fuel as [|fuel IH]; intros r H; cbn [read_lines].
  - destruct (rep r); [reflexivity|cbn in H; lia].
  - rewrite hasNext_rep. destruct (rep r) as [|l ls] eqn:E; [reflexivity|].
    destruct (nextLine_rep r l ls E) as [E1 E2]. destruct (nextLine r) as [l' r']; cbn in *.
    subst. rewrite IH; auto. cbn in H. lia.
Qed.

Lemma pending_complete skip rest : Forall (fun f => body skip f <> []) rest ->
  pending skip rest = concat (map (body skip) rest).
Proof.
  induction 1 as [|f rest H _ IH]; cbn; [reflexivity|]. rewrite <- IH.
  destruct (body skip f); [contradiction|reflexivity].
Qed.

Lemma pending_prefix skip rest : exists t, concat (map (body skip) rest) = pending skip rest ++ t.
Proof.
  induction rest as [|f rest [t IH]]; cbn; [now exists []|].
  destruct (body skip f) as [|b bs]; [now eexists|].
  exists t. rewrite IH. now rewrite app_assoc.
Qed.

Lemma rep_open files skip :
  rep (open_path files skip) =
  match map lines_of files with
  | [] => []
  | f :: rest => if skip then match f with [] => [] | _ => tl f ++ pending skip rest end
                 else f ++ pending skip rest
  end.
Proof.
  unfold open_path. destruct (map lines_of files) as [|f rest]; [reflexivity|].
  destruct skip.
  - destruct f as [|h t]; [reflexivity|]. cbn [tl].
    pose proof (nextLine_rep {| lr_open := true; lr_cur := t; lr_rest := rest; lr_has_next := true;
       lr_next_line := []; lr_skip_header := true |} [] (t ++ pending true rest) eq_refl) as [_ H]. exact H.
  - pose proof (nextLine_rep {| lr_open := true; lr_cur := f; lr_rest := rest; lr_has_next := true;
       lr_next_line := []; lr_skip_header := false |} [] (f ++ pending false rest) eq_refl) as [_ H]. exact H.
Qed.

Definition total_lines (files : list str) : nat := length (concat (map lines_of files)).

Lemma rep_open_prefix files skip :
  exists t, concat (map (body skip) (map lines_of files)) = rep (open_path files skip) ++ t.
Proof.
  rewrite rep_open. destruct (map lines_of files) as [|f rest]; [now exists []|].
  cbn [map concat]. destruct (pending_prefix skip rest) as [t E]. rewrite E.
  destruct skip; cbn [body].
  - destruct f; [now eexists|]. exists t. now rewrite app_assoc.
  - exists t. now rewrite app_assoc.
Qed.

Lemma rep_open_complete files skip :
  Forall (fun f => body skip (lines_of f) <> []) files ->
  rep (open_path files skip) = concat (map (body skip) (map lines_of files)).
Proof.
  intro H. rewrite rep_open. destruct files as [|f files]; [reflexivity|].
  inversion H as [|? ? Hf Hr]; subst. cbn [map concat].
  rewrite pending_complete.
  - destruct skip; cbn [body]; [|reflexivity]. destruct (lines_of f); [contradiction|reflexivity].
  - rewrite Forall_map. exact Hr.
Qed.

Lemma body_length skip l : length (concat (map (body skip) l)) <= length (concat l).
Proof.
  induction l as [|f l IH]; cbn; [lia|]. rewrite !app_length.
  destruct skip; cbn [body]; [|lia]. destruct f; cbn; lia.
Qed.

Lemma read_all_complete files skip fuel : total_lines files <= fuel ->
  Forall (fun f => body skip (lines_of f) <> []) files ->
  read_lines fuel (open_path files skip) = concat (map (fun f => body skip (lines_of f)) files).
Proof.
  intros Hf H. rewrite read_lines_rep; [rewrite rep_open_complete; auto; now rewrite map_map|].
  rewrite rep_open_complete by auto. pose proof (body_length skip (map lines_of files)).
  unfold total_lines in Hf. lia.
Qed.

Lemma read_all_prefix files skip fuel : total_lines files <= fuel ->
  exists t, concat (map (fun f => body skip (lines_of f)) files) =
            read_lines fuel (open_path files skip) ++ t.
Proof.
  intros Hf. destruct (rep_open_prefix files skip) as [t E].
  exists t. rewrite read_lines_rep.
  - rewrite <- E. now rewrite map_map.
  - pose proof (body_length skip (map lines_of files)) as B. rewrite E, app_length in B.
    unfold total_lines in Hf. lia.
Qed.

(** single file *)
Lemma read_single content fuel : total_lines [content] <= fuel ->
  read_lines fuel (open_path [content] false) = lines_of content.
Proof.
  intro H. rewrite read_lines_rep; rewrite rep_open; cbn; [apply app_nil_r|].
  rewrite app_nil_r. unfold total_lines in H. cbn in H. now rewrite app_nil_r in H.
Qed.
