(** Model of the search for the parameters of a label task.

    Simplifications, for every definition in this file: the accuracies, losses, sizes and parameters are
    exact rationals instead of [float] and [double] (an accuracy may be NaN, a loss infinite); what an
    attempt gives is a parameter, any function of the number of the attempt, the data it used and the
    combination; logging, the choice of patience and tolerances, and the data sets themselves are left out
    (see the models of training and of the data sets). *)
From Coq Require Import List Arith Bool QArith.
From Verif Require Import Outcome.
Import ListNotations.
Local Open Scope Q_scope.

(** src/util/task_utils.hpp:489, a complexity modifier and a learning rate adjustment factor *)
Notation combination := (Q * Q)%type.
Definition same (a b : combination) : bool := Qeq_bool (fst a) (fst b) && Qeq_bool (snd a) (snd b).

(** src/util/task_utils.hpp:482, [float target_accuracy = 0.90]: the nearest [float]. *)
Definition target_accuracy : Q := 15099494 # 16777216.

(** src/util/task_utils.hpp:491-501: the values of a loop that starts with [x] and goes on while it is at
    most [max]; [fuel] is more than the loops take. *)
Fixpoint values (fuel : nat) (next : Q -> Q) (max x : Q) : list Q :=
  match fuel with
  | O => []
  | S fuel => if Qle_bool x max then x :: values fuel next max (next x) else []
  end.
(** src/util/task_utils.hpp:489-501, before the shuffle *)
Definition grid (speed : bool) : list combination :=
  let learning_rates := values 20 (fun x => x + (if speed then 2 else 1)) (if speed then 8 else 15) (if speed then 4 else 0) in
  let complexities := values 20 (fun x => x * (5 # 4)) (if speed then 8 else 12) 1 in
  flat_map (fun complexity => map (pair complexity) learning_rates) complexities.

(** src/ml/neural_network.hpp:18-51, the members the search looks at; an accuracy that is not a number is
    [None], a loss of [INFINITY] is [None]. *)
Record result := { accuracy : option Q; final_test_loss : option Q; its : combination }.
(** src/ml/neural_network.hpp:20-35: a result that was never filled in. *)
Definition no_result : result := {| accuracy := Some 0; final_test_loss := None; its := (0, 0) |}.

(** What becomes of one attempt: trained, or an exception while it trained, or already while the network
    was built. *)
Inductive fate := Trained (accuracy : option Q) (loss : option Q) | Failed | Not_built.

(** src/util/task_utils.hpp:575-577, the order of the leader board *)
Definition above (a b : option Q) : bool := match a, b with Some a, Some b => negb (Qle_bool a b) | _, _ => false end.
Definition equal (a b : option Q) : bool := match a, b with Some a, Some b => Qeq_bool a b | _, _ => false end.
Definition less_loss (a b : option Q) : bool :=
  match a, b with Some a, Some b => negb (Qle_bool b a) | Some _, None => true | None, _ => false end.
Definition better (a b : result) : bool :=
  above (accuracy a) (accuracy b) || equal (accuracy a) (accuracy b) && less_loss (final_test_loss a) (final_test_loss b).
(** [std::sort] wants a strict weak order on what it sorts; otherwise the behaviour is undefined. *)
Definition tied (a b : result) : bool := negb (better a b) && negb (better b a).
Definition sortable (l : list result) : bool :=
  forallb (fun a => tied a a && forallb (fun b => forallb (fun c =>
    implb (better a b && better b c) (better a c) && implb (tied a b && tied b c) (tied a c)) l) l) l.

Section Search.
Context (train : nat -> bool -> combination -> fate) (sort : list result -> list result) (recordCount : N).

(** src/util/task_utils.hpp:340-388: the result of an attempt, if there is one. *)
Definition attempt_training (attempt : nat) (using_source : bool) (p : combination) : outcome result :=
  match train attempt using_source p with
  | Trained a l => Ok {| accuracy := a; final_test_loss := l; its := p |}
  | Failed => Ok no_result
  | Not_built => Throw
  end.
Definition accurate (r : result) : bool := match accuracy r with Some a => Qle_bool target_accuracy a | None => false end.
(** src/util/task_utils.hpp:537-566: the attempts of one round.  Gives the number of the last attempt, which
    is the network held in [neuralNetwork], the results, and whether it was found. *)
Fixpoint attempts (using_source : bool) (attempt : nat) (next_results : list result) (l : list combination) : outcome (nat * list result * bool) :=
  match l with
  | [] => Ok (attempt, next_results, false)
  | p :: l =>
      do r <- attempt_training (S attempt) using_source p;
      if using_source && accurate r then Ok (S attempt, next_results ++ [r], true)
      else attempts using_source (S attempt) (next_results ++ [r]) l
  end.

(** src/util/task_utils.hpp:617-628 *)
Definition nearby (p : combination) : list combination :=
  let '(complexity, rate) := p in
  [(complexity, rate); (complexity / (11 # 10), rate); (complexity * 2, rate); (complexity / 2, rate);
   (complexity / (11 # 10), rate - (1 # 2)); (complexity, rate - (1 # 2)); (complexity, rate - (5 # 2)); (complexity, rate / 2)].

(** src/util/task_utils.hpp:570-635: the combinations after a round that found nothing.  [retries] is
    declared inside the loop, so it is 0 here in every round and the branch for 3 retries is never taken. *)
Definition next_combinations (using_source : bool) (next_results : list result) (l : list combination) : outcome (list combination) :=
  if sortable next_results then
    let next_results := sort next_results in
    if (1 <? length next_results)%nat then
      let top_results := if using_source then 1%nat else Nat.max (length next_results / 4) 2 in
      let next_results := firstn top_results next_results in
      Ok (filter (fun p => existsb (fun r => same (its r) p) next_results) l)
    else if using_source then
      match l with
      | [] => UB
      | front :: _ => Ok (nearby front)
      end
    else Ok l
  else UB.

Record search := { combinations : list combination; attempt : nat; next_search_size : Q }.
Inductive verdict := Save (network : nat) | Again (s : search).
Definition uses_source (size : Q) : bool := Qle_bool (inject_Z (Z.of_N recordCount)) (size + 1).
(** src/util/task_utils.hpp:512-644: one round of the loop. *)
Definition round (s : search) : outcome verdict :=
  let count := inject_Z (Z.of_N recordCount) in
  let using_source := uses_source (next_search_size s) in
  do a <- attempts using_source (attempt s) [] (combinations s);
  let '(attempt, next_results, found) := a in
  if found then Ok (Save attempt)
  else
    do l <- next_combinations using_source next_results (combinations s);
    let size := if (2 <? length l)%nat && negb (Qle_bool count (next_search_size s)) then next_search_size s * 2 else count in
    Ok (Again {| combinations := l; attempt := attempt; next_search_size := size |}).

(** At most [n] rounds. *)
Fixpoint rounds (n : nat) (s : search) : outcome verdict :=
  match n with
  | O => Ok (Again s)
  | S n => do v <- round s; match v with Save network => Ok (Save network) | Again s => rounds n s end
  end.
(** src/util/task_utils.hpp:509-510: the search at its start, with the shuffled combinations. *)
Definition start (shuffled : list combination) : search := {| combinations := shuffled; attempt := 0; next_search_size := 640 |}.
End Search.
