From Coq Require Import Ascii String List Bool Arith Lia.
From Flocq Require Import IEEE754.Binary IEEE754.Bits.
From Verif Require Import Outcome Chars Delimited_Model Encode_Model InputHelp_Model InputHelp_Spec.
Import ListNotations.

Lemma seq_eqb_sym a b : seq_eqb a b = seq_eqb b a.
Proof. destruct (seq_eqb_spec a b), (seq_eqb_spec b a); congruence. Qed.
Lemma seq_eqb_self a : seq_eqb a a = true.
Proof. destruct (seq_eqb_spec a a); congruence. Qed.

Lemma input_at_in m k v : input_at m k = Some v -> In (k, v) m.
Proof.
  unfold input_at. destruct (find _ m) as [[a b]|] eqn:E; [|discriminate]. cbn [option_map snd]. intros H. injection H as ->. apply find_some in E as [I E]. cbn [fst] in E.
  destruct (seq_eqb_spec a k); [subst; exact I|discriminate].
Qed.
Lemma in_input_at m k v : NoDup (map fst m) -> In (k, v) m -> input_at m k = Some v.
Proof.
  unfold input_at. induction m as [|[a b] m IH]; intros D I; [destruct I|]. cbn [map fst] in D. inversion D as [|x l Nx D']; subst. cbn [find fst].
  destruct (seq_eqb_spec a k) as [->|N].
  - destruct I as [I|I]; [cbn; congruence|]. exfalso. apply Nx. apply in_map_iff. exists (k, v). split; [reflexivity|exact I].
  - destruct I as [I|I]; [congruence|]. now apply IH.
Qed.
Lemma has_field m n : has (input_at m (lower n)) = existsb (field_for n) m.
Proof.
  unfold input_at. induction m as [|[a b] m IH]; [reflexivity|]. cbn [find existsb fst]. unfold field_for at 1. cbn [fst]. rewrite (seq_eqb_sym (lower n) a). destruct (seq_eqb a (lower n)); [reflexivity|exact IH].
Qed.
Lemma not_provided m n : (forall v, ~ In (lower n, v) m) -> input_at m (lower n) = None.
Proof. intros H. destruct (input_at m (lower n)) as [v|] eqn:E; [|reflexivity]. destruct (H v). now apply input_at_in. Qed.

(** The loops with a delimiter. *)
Lemma write_after {A} (skip : A -> bool) (name : A -> str) l : forall message found,
  found = true ->
  fold_left (fun st x => write (skip x) (name x) st) l (message, lit ",", found) =
  (message ++ concat (map (fun n => lit "," ++ n) (map name (filter (fun x => negb (skip x)) l))), lit ",", true).
Proof.
  induction l as [|x l IH]; intros message found ->; [cbn [fold_left filter map concat]; now rewrite app_nil_r|]. cbn [fold_left filter]. unfold write at 2. destruct (skip x); cbn [negb].
  - now apply IH.
  - rewrite IH by reflexivity. cbn [map concat]. now rewrite !app_assoc.
Qed.
Lemma joined_cons sep x l : joined sep (x :: l) = x ++ concat (map (fun n => sep ++ n) l).
Proof.
  revert x. induction l as [|y l IH]; intros x; [cbn; now rewrite app_nil_r|]. change (joined sep (x :: y :: l)) with (x ++ sep ++ joined sep (y :: l)). rewrite IH. cbn [map concat]. now rewrite !app_assoc.
Qed.
Lemma write_all {A} (skip : A -> bool) (name : A -> str) start stop l : forall message,
  (let '(m, _, found) := fold_left (fun st x => write (skip x) (name x) st) l (message, start, false) in if found then m ++ stop else m) =
  message ++ sentence start (map name (filter (fun x => negb (skip x)) l)) stop.
Proof.
  induction l as [|x l IH]; intros message; [cbn [fold_left filter map sentence]; now rewrite app_nil_r|]. cbn [fold_left filter]. unfold write at 2. destruct (skip x); cbn [negb].
  - apply IH.
  - rewrite write_after by reflexivity. cbn [map sentence]. rewrite joined_cons. now rewrite !app_assoc.
Qed.

Lemma filter_map_comm {A B} (f : A -> B) p l : filter p (map f l) = map f (filter (fun x => p (f x)) l).
Proof. induction l as [|x l IH]; [reflexivity|]. cbn. destruct (p (f x)); cbn; now rewrite IH. Qed.

Lemma explanation_is m names : explanation m names = advice m names.
Proof.
  unfold explanation, advice.
  assert (H1 : (let '(message, _, found_one) := (fold_left (fun st given_column_name => write (has (input_at m (lower given_column_name))) given_column_name st) names ([], lit "You did not provide the fields: ", false)) in if found_one then message ++ lit ". " else message) =
    [] ++ sentence (lit "You did not provide the fields: ") (map (fun n => n) (filter (fun x => negb (has (input_at m (lower x)))) names)) (lit ". "))
    by exact (write_all (fun n => has (input_at m (lower n))) (fun n => n) (lit "You did not provide the fields: ") (lit ". ") names []).
  revert H1. destruct (fold_left (fun st given_column_name => write (has (input_at m (lower given_column_name))) given_column_name st) names ([], lit "You did not provide the fields: ", false)) as [[m1 d1] f1]. intros H1. cbv beta iota zeta in H1 |- *. rewrite H1.
  pose proof (write_all (fun f : str * list variant => existsb (fun n => seq_eqb n (lower (fst f))) (map lower names)) fst (lit "You provided the invalid fields: ") (lit ".") m
    ([] ++ sentence (lit "You did not provide the fields: ") (map (fun n => n) (filter (fun x => negb (has (input_at m (lower x)))) names)) (lit ". "))) as H2.
  etransitivity; [exact H2|]. rewrite app_nil_l, map_id. f_equal.
  - f_equal. unfold missing. apply filter_ext. intros n. now rewrite has_field.
  - f_equal. unfold unknown. rewrite filter_map_comm. f_equal. apply filter_ext. intros f. f_equal. clear. induction names as [|n l IH]; [reflexivity|]. cbn [map existsb]. rewrite IH. f_equal. unfold same_name. apply seq_eqb_sym.
Qed.

Lemma values_text_is l : values_text l = joined (lit ", ") (map to_string l).
Proof.
  unfold values_text. destruct l as [|v l]; [reflexivity|]. cbn [fold_left map]. rewrite joined_cons, !app_nil_l.
  generalize (to_string v) as s. induction l as [|w l IH]; intros s; [cbn; now rewrite app_nil_r|]. cbn [fold_left map]. rewrite IH. cbn [concat]. now rewrite !app_assoc.
Qed.
Lemma inputs_text_is m : inputs_text m = concat (map (fun f => lit "  " ++ fst f ++ lit ": " ++ joined (lit ", ") (map to_string (snd f)) ++ [NL]) m).
Proof.
  assert (G : forall s, fold_left (fun inputs_stream kv => inputs_stream ++ lit "  " ++ fst kv ++ lit ": " ++ values_text (snd kv) ++ [NL]) m s =
    s ++ concat (map (fun f => lit "  " ++ fst f ++ lit ": " ++ joined (lit ", ") (map to_string (snd f)) ++ [NL]) m)).
  { induction m as [|f m IH]; intros s; [cbn; now rewrite app_nil_r|]. cbn [fold_left map]. rewrite IH, values_text_is. cbn [concat]. now rewrite !app_assoc. }
  exact (G []).
Qed.

Lemma Forall2_length' {A B} (R : A -> B -> Prop) l l' : Forall2 R l l' -> List.length l = List.length l'.
Proof. induction 1; cbn; congruence. Qed.

(** Encoding. *)
Lemma given_complete m cols ts : NoDup (map fst m) -> Forall2 (encodes m) cols ts -> build_given_printing m cols = Ok ([], ts).
Proof. intros D. induction 1 as [|c t cols ts (v & I & E) _ IH]; [reflexivity|]. cbn [build_given_printing]. rewrite (in_input_at _ _ _ D I), E, IH. reflexivity. Qed.
Lemma given_stops m a ts c b : NoDup (map fst m) -> Forall2 (encodes m) a ts -> (forall v, ~ In (lower (c_name c), v) m) -> build_given_printing m (a ++ c :: b) = Ok ([], ts).
Proof. intros D F N. induction F as [|x t a ts (v & I & E) _ IH]; cbn [app build_given_printing]; [now rewrite (not_provided _ _ N)|]. rewrite (in_input_at _ _ _ D I), E, IH. reflexivity. Qed.
Lemma given_throws m a ts c b v : NoDup (map fst m) -> Forall2 (encodes m) a ts -> In (lower (c_name c), v) m -> variant_encode c v = Throw ->
  build_given_printing m (a ++ c :: b) = Ok (lit "Error while encoding input: " ++ encode_what c v ++ [NL], ts).
Proof. intros D F N T. induction F as [|x t a ts (w & I & E) _ IH]; cbn [app build_given_printing]; [now rewrite (in_input_at _ _ _ D N), T|]. rewrite (in_input_at _ _ _ D I), E, IH. reflexivity. Qed.

(** Fields as they are typed. *)
Lemma tolower_twice c : tolower (tolower c) = tolower c.
Proof. destruct c as [[] [] [] [] [] [] [] []]; reflexivity. Qed.
Lemma lower_twice s : lower (lower s) = lower s.
Proof. unfold lower. rewrite map_map. apply map_ext. exact tolower_twice. Qed.

Lemma keys_filter (m : fields) p : NoDup (map fst m) -> NoDup (map fst (filter p m)).
Proof.
  induction m as [|f m IH]; intros D; [constructor|]. cbn [map] in D. inversion D as [|x l Nx D']; subst. cbn [filter]. destruct (p f); [|now apply IH]. cbn [map]. constructor; [|now apply IH].
  intros I. apply Nx. apply in_map_iff in I as (g & E & I). apply filter_In in I as [I _]. apply in_map_iff. now exists g.
Qed.
Lemma entered_snoc l f : entered (l ++ [f]) = enter (entered l) f.
Proof. unfold entered. now rewrite fold_left_app. Qed.
Lemma nodup_snoc {A} (l : list A) x : NoDup l -> ~ In x l -> NoDup (l ++ [x]).
Proof.
  induction l as [|y l IH]; intros D N; [constructor; [intros []|constructor]|]. inversion D as [|z l' Ny D']; subst. cbn [app]. constructor.
  - intros I. apply in_app_or in I as [I|[I|[]]]; [contradiction|]. apply N. now left.
  - apply IH; [exact D'|]. intros I. apply N. now right.
Qed.
Lemma entered_keys l : NoDup (map fst (entered l)) /\ forall k v, In (k, v) (entered l) -> lower k = k.
Proof.
  induction l as [|f l [D L]] using rev_ind; [split; [constructor|intros k v []]|]. rewrite entered_snoc. unfold enter. split.
  - rewrite map_app. cbn [map fst]. apply nodup_snoc; [now apply keys_filter|]. intros I. apply in_map_iff in I as (g & E & I). apply filter_In in I as [_ I]. rewrite E, seq_eqb_self in I. discriminate.
  - intros k v I. apply in_app_or in I as [I|[I|[]]]; [apply filter_In in I as [I _]; exact (L _ _ I)|]. injection I as <- _. apply lower_twice.
Qed.
Lemma entered_last l k v : In (k, v) (entered l) <-> exists a key b, l = a ++ (key, v) :: b /\ lower key = k /\ forall key' v', In (key', v') b -> lower key' <> k.
Proof.
  induction l as [|[key0 v0] l IH] using rev_ind; [split; [intros []|intros (a & key & b & E & _); destruct a; discriminate]|]. rewrite entered_snoc. unfold enter. cbn [fst snd]. split.
  - intros I. apply in_app_or in I as [I|[I|[]]].
    + apply filter_In in I as [I N]. cbn [fst] in N. destruct (seq_eqb_spec k (lower key0)) as [?|N']; [discriminate|]. apply IH in I as (a & key & b & -> & E & H). exists a, key, (b ++ [(key0, v0)]). split; [now rewrite <- app_assoc|]. split; [exact E|].
      intros key' v' J. apply in_app_or in J as [J|[J|[]]]; [exact (H _ _ J)|]. injection J as <- _. congruence.
    + injection I as <- <-. exists l, key0, []. split; [reflexivity|]. split; [reflexivity|intros ? ? []].
  - intros (a & key & b & E & Ek & H). apply in_or_app. destruct b as [|x b] using rev_ind.
    + apply app_inj_tail in E as [<- E]. injection E as -> ->. right. left. now rewrite Ek.
    + clear IHb. replace (a ++ (key, v) :: b ++ [x]) with ((a ++ (key, v) :: b) ++ [x]) in E by now rewrite <- app_assoc. apply app_inj_tail in E as [E Ex]. subst x. left. apply filter_In. split.
      * apply IH. exists a, key, b. split; [exact E|]. split; [exact Ek|]. intros k' v' J. apply (H k' v'). apply in_or_app. now left.
      * cbn [fst]. destruct (seq_eqb_spec k (lower key0)) as [->|N]; [|reflexivity]. exfalso. apply (H key0 v0); [apply in_or_app; right; now left|reflexivity].
Qed.
