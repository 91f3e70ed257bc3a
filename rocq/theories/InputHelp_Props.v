(** C114: a task run on typed fields answers, or says which fields are missing. *)
From Coq Require Import Ascii String List Bool Arith Lia.
From Flocq Require Import IEEE754.Binary IEEE754.Bits.
From Verif Require Import Outcome Chars Delimited_Model F32_Model Scaling_Model Encode_Model InputHelp_Model InputHelp_Spec InputHelp_Proofs.
Import ListNotations.

(** With a field for each column that can be encoded the task answers, whatever the order and the other fields are. *)
Theorem complete_fields_are_answered : forall t with_dataset task_name dataset_name inputs ts, NoDup (map fst inputs) -> inputs <> [] ->
  Forall2 (encodes inputs) (given_columns t) ts ->
  execute_task (Some (Ok t)) with_dataset task_name dataset_name inputs =
  do table <- answer t ts; Ok {| printed := lit "Results: " ++ [NL] ++ table; successful := true; message := lit "Complete." |}.
Proof.
  intros t w n d m ts D N F. destruct m as [|f m]; [contradiction|]. unfold execute_task, execute_task_with_inputs. cbn [obind]. rewrite (given_complete _ _ _ D F). cbn [obind fst snd].
  rewrite map_length, <- (Forall2_length' _ _ _ F), Nat.eqb_refl. cbn [negb]. destruct (answer t ts); [|reflexivity|reflexivity]. cbn [obind fst snd negb]. now rewrite app_nil_r, <- app_assoc.
Qed.
Print Assumptions complete_fields_are_answered.

(** Otherwise there is a first column whose field is missing or cannot be encoded: nothing is predicted, the columns without a field
    and the fields without a column are listed, and the message of the statement repeats the fields. *)
Theorem incomplete_fields_are_explained : forall t with_dataset task_name dataset_name inputs before ts c after, NoDup (map fst inputs) -> inputs <> [] ->
  given_columns t = before ++ c :: after -> Forall2 (encodes inputs) before ts ->
  ((forall v, ~ In (lower (c_name c), v) inputs) ->
   execute_task (Some (Ok t)) with_dataset task_name dataset_name inputs =
   Ok {| printed := lit "Results: " ++ [NL] ++ advice inputs (map c_name (given_columns t)) ++ [NL];
         successful := false; message := failure task_name inputs |}) /\
  (forall v, In (lower (c_name c), v) inputs -> variant_encode c v = Throw ->
   execute_task (Some (Ok t)) with_dataset task_name dataset_name inputs =
   Ok {| printed := lit "Results: " ++ [NL] ++ lit "Error while encoding input: " ++ encode_what c v ++ [NL] ++ advice inputs (map c_name (given_columns t)) ++ [NL];
         successful := false; message := failure task_name inputs |}).
Proof.
  intros t w n d m a ts c b D N E F.
  assert (L : (List.length ts =? List.length (map c_name (given_columns t)))%nat = false).
  { apply Nat.eqb_neq. rewrite map_length, E, app_length, (Forall2_length' _ _ _ F). cbn [List.length]. lia. }
  assert (Fl : lit "Failed to execute task " ++ n ++ lit " with inputs:" ++ [NL] ++ inputs_text m = failure n m) by (unfold failure; now rewrite inputs_text_is).
  split.
  - intros Np. pose proof (given_stops m a ts c b D F Np) as G. rewrite <- E in G. destruct m as [|f m]; [contradiction|]. unfold execute_task, execute_task_with_inputs. cbn [obind]. rewrite G. cbn [obind fst snd].
    rewrite L. cbn [negb obind fst snd]. rewrite Fl, explanation_is, app_nil_r, <- app_assoc. reflexivity.
  - intros v I T. pose proof (given_throws m a ts c b v D F I T) as G. rewrite <- E in G. destruct m as [|f m]; [contradiction|]. unfold execute_task, execute_task_with_inputs. cbn [obind]. rewrite G. cbn [obind fst snd].
    rewrite L. cbn [negb obind fst snd]. rewrite Fl, explanation_is, <- !app_assoc. reflexivity.
Qed.
Print Assumptions incomplete_fields_are_explained.

(** The lists name exactly the columns without a field and the fields without a column, in their order. *)
Theorem advice_names : forall inputs columns,
  (forall c, In c (missing inputs columns) <-> In c columns /\ forall v, ~ In (lower c, v) inputs) /\
  (forall k, In k (unknown inputs columns) <-> (exists v, In (k, v) inputs) /\ forall c, In c columns -> lower c <> lower k) /\
  (advice inputs columns = [] <-> missing inputs columns = [] /\ unknown inputs columns = []).
Proof.
  intros m cs. split; [|split].
  - intros c. unfold missing. rewrite filter_In, negb_true_iff. split; intros [I H]; (split; [exact I|]).
    + intros v J. assert (existsb (field_for c) m = true); [|congruence]. apply existsb_exists. exists (lower c, v). split; [exact J|]. apply seq_eqb_self.
    + destruct (existsb (field_for c) m) eqn:E; [|reflexivity]. apply existsb_exists in E as ([k v] & J & E). unfold field_for in E. cbn [fst] in E. destruct (seq_eqb_spec (lower c) k) as [<-|]; [|discriminate]. now destruct (H v).
  - intros k. unfold unknown. rewrite filter_In, negb_true_iff. split; intros [I H]; (split; [|]).
    + apply in_map_iff in I as ([a b] & <- & I). now exists b.
    + intros c J E. assert (existsb (same_name k) cs = true); [|congruence]. apply existsb_exists. exists c. split; [exact J|]. unfold same_name. rewrite E. apply seq_eqb_self.
    + destruct I as [v I]. apply in_map_iff. now exists (k, v).
    + destruct (existsb (same_name k) cs) eqn:E; [|reflexivity]. apply existsb_exists in E as (c & J & E). unfold same_name in E. destruct (seq_eqb_spec (lower k) (lower c)) as [E'|]; [|discriminate]. now destruct (H c J).
  - unfold advice, sentence. split; [|now intros [-> ->]]. destruct (missing m cs), (unknown m cs); intros E; try discriminate. now split.
Qed.
Print Assumptions advice_names.

(** Fields are found whatever the case of their names; the one typed last counts. *)
Theorem fields_in_any_case : forall typed, NoDup (map fst (entered typed)) /\
  forall column_name v, In (lower column_name, v) (entered typed) <->
    exists a key b, typed = a ++ (key, v) :: b /\ same_name key column_name = true /\ forall key' v', In (key', v') b -> same_name key' column_name = false.
Proof.
  intros typed. split; [apply entered_keys|]. intros n v. rewrite entered_last. unfold same_name. split; intros (a & key & b & E & K & H); exists a, key, b; (split; [exact E|]); split.
  - rewrite K. apply seq_eqb_self.
  - intros k' v' I. destruct (seq_eqb_spec (lower k') (lower n)) as [Q|]; [|reflexivity]. now destruct (H _ _ I).
  - destruct (seq_eqb_spec (lower key) (lower n)); [assumption|discriminate].
  - intros k' v' I. specialize (H _ _ I). destruct (seq_eqb_spec (lower k') (lower n)); [discriminate|assumption].
Qed.
Print Assumptions fields_in_any_case.

(** Without a task, or without fields and dataset, nothing is run and the message says so. *)
Theorem nothing_to_run : forall on_disk with_dataset task_name dataset_name inputs,
  (inputs <> [] -> execute_task None with_dataset task_name dataset_name inputs =
     Ok {| printed := lit "Task " ++ task_name ++ lit " does not exists. Skipping." ++ [NL]; successful := false; message := failure task_name inputs |}) /\
  execute_task on_disk with_dataset task_name [] [] =
     Ok {| printed := []; successful := false; message := lit "Failed to execute task " ++ task_name ++ lit " because no input or dataset was provided." |}.
Proof.
  intros k w n d m. split; [|reflexivity]. intros N. destruct m as [|f m]; [contradiction|]. unfold execute_task, execute_task_with_inputs. cbn [obind fst snd negb]. unfold failure. now rewrite inputs_text_is.
Qed.
Print Assumptions nothing_to_run.

(** Finding: fields without a column are listed only if another field is missing. If not, the task answers as if they had not been typed. *)
Theorem unknown_fields_are_listed_refuted : forall t with_dataset task_name dataset_name inputs ts k v, NoDup (map fst inputs) -> inputs <> [] ->
  Forall2 (encodes inputs) (given_columns t) ts -> ~ In k (map fst inputs) ->
  execute_task (Some (Ok t)) with_dataset task_name dataset_name ((k, v) :: inputs) = execute_task (Some (Ok t)) with_dataset task_name dataset_name inputs.
Proof.
  intros t w n d m ts k v D N F K. rewrite (complete_fields_are_answered t w n d m ts D N F). apply complete_fields_are_answered.
  - cbn [map fst]. now constructor.
  - discriminate.
  - clear - F. induction F as [|c x cs ts (u & I & E) _ IH]; constructor; [|exact IH]. exists u. split; [now right|exact E].
Qed.
Print Assumptions unknown_fields_are_listed_refuted.

(** Finding: what is printed about a value that is no number does not name its field: two tasks whose columns fail print the same. *)
Definition unscaled : scaling float32 := {| is_standardized := false; mean := f0 : num float32; standard_deviation := f0 : num float32; is_normalized := false; min_value := f0 : num float32; max_value := f0 : num float32 |}.
Definition number_column (name : str) : column := {| c_purpose := Number; c_rows := 1; c_columns := 1; c_channels := 1; c_scaling := unscaled; c_labels := []; c_name := name |}.
Definition two_columns (a b : str) : task := {| given_columns := [number_column a; number_column b]; answer := fun _ => Ok [] |}.
Definition word (s : str) : variant := {| to_string := s; as_float := Throw |}.
Definition digit (s : str) : variant := {| to_string := s; as_float := Ok f1 |}.
Theorem encoding_error_names_the_field_refuted : exists t a b x y va vb n, a <> b /\ map c_name (given_columns t) = [a; b] /\
  omap printed (execute_task (Some (Ok t)) Throw n [] [(a, x); (b, vb)]) = omap printed (execute_task (Some (Ok t)) Throw n [] [(a, va); (b, y)]) /\
  variant_encode (number_column a) x = Throw /\ variant_encode (number_column b) y = Throw /\
  (exists p, variant_encode (number_column a) va = Ok p) /\ exists p, variant_encode (number_column b) vb = Ok p.
Proof.
  exists (two_columns (lit "age") (lit "size")), (lit "age"), (lit "size"), [word (lit "x")], [word (lit "x")], [digit (lit "1")], [digit (lit "1")], (lit "t").
  split; [discriminate|]. split; [reflexivity|]. split; [reflexivity|]. split; [reflexivity|]. split; [reflexivity|]. split; eexists; reflexivity.
Qed.
Print Assumptions encoding_error_names_the_field_refuted.

(** Examples: a task with the columns [Age] and [Size]. *)
Definition people : task := {| given_columns := [number_column (lit "Age"); number_column (lit "Size")]; answer := fun ts => Ok (match ts with [_; _] => lit "tall" ++ [NL] | _ => [] end) |}.
Example ex_complete : exists ts, let m := entered [(lit "SIZE", [digit (lit "2")]); (lit "age", [digit (lit "1")])] in
  Forall2 (encodes m) (given_columns people) ts /\ NoDup (map fst m) /\
  execute_task (Some (Ok people)) Throw (lit "t") [] m = Ok {| printed := lit "Results: " ++ [NL] ++ lit "tall" ++ [NL]; successful := true; message := lit "Complete." |}.
Proof.
  eexists. cbv zeta. split; [|split].
  - constructor; [|constructor; [|constructor]].
    + exists [digit (lit "1")]. split; [right; left; reflexivity|reflexivity].
    + exists [digit (lit "2")]. split; [left; reflexivity|reflexivity].
  - apply fields_in_any_case.
  - reflexivity.
Qed.
Example ex_incomplete : let m := entered [(lit "hight", [word (lit "2"); word (lit "3")])] in
  execute_task (Some (Ok people)) Throw (lit "t") [] m =
  Ok {| printed := lit "Results: " ++ [NL] ++ lit "You did not provide the fields: Age,Size. You provided the invalid fields: hight." ++ [NL]; successful := false;
        message := lit "Failed to execute task t with inputs:" ++ [NL] ++ lit "  hight: 2, 3" ++ [NL] |} /\
  (forall v, ~ In (lower (lit "Age"), v) m).
Proof. split; [reflexivity|]. intros v [I|[]]. discriminate I. Qed.
Example ex_not_a_number : let m := entered [(lit "age", [digit (lit "1")]); (lit "size", [word (lit "big")])] in
  execute_task (Some (Ok people)) Throw (lit "t") [] m =
  Ok {| printed := lit "Results: " ++ [NL] ++ lit "Error while encoding input: Cannot convert to float: big" ++ [NL] ++ [NL]; successful := false;
        message := failure (lit "t") m |}.
Proof. reflexivity. Qed.
