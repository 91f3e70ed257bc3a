(** Model of the search for hyperparameters.

    A configuration is an object known by a number.  What a training with it reaches is a parameter:
    [metric round c] is the metric of configuration [c] in round [round], an integer standing for the
    position of the float in their order (a metric that is not a number is not modelled).  The models
    of a round are trained in parallel; the order in which they finish is arbitrary.  An exception in a
    training, which ends the program, is not modelled. *)
From Coq Require Import List Arith ZArith Bool Permutation.
From Verif Require Import Outcome.
Import ListNotations.

(** src/ml/hyperband/configuration_evaluator.hpp:250-262 [updateBestConfiguration]: the best configuration
    so far with its metric. *)
Definition better (minimize : bool) (x y : Z) : bool := if minimize then Z.ltb x y else Z.ltb y x.
Definition update_best (minimize : bool) (best : option (nat * Z)) (c : nat) (m : Z) : option (nat * Z) :=
  match best with
  | None => Some (c, m)
  | Some (_, b) => if better minimize m b then Some (c, m) else best
  end.
(** src/ml/hyperband/hyperband.hpp:32-36: the evaluations of a round, in the order in which they finish. *)
Definition evaluate_all (minimize : bool) (metric : nat -> Z) (order : list nat) (best : option (nat * Z)) : option (nat * Z) :=
  fold_left (fun best c => update_best minimize best c (metric c)) order best.

(** src/ml/hyperband/hyperband.hpp:76-80: the order of the sort, [config1] is worse than [config2]. *)
Definition goes_first (minimize : bool) (m1 m2 : Z) : bool := if minimize then Z.ltb m2 m1 else Z.ltb m1 m2.
(** [std::partial_sort] with that order, as its documentation says: the first [n] elements are those
    that come first, sorted; the others are in any order. *)
Definition partially_sorted (minimize : bool) (metric : nat -> Z) (n : nat) (l kept rest : list nat) : Prop :=
  Permutation l (kept ++ rest) /\ length kept = n /\
  (forall i j a b, i < j -> nth_error kept i = Some a -> nth_error kept j = Some b -> goes_first minimize (metric b) (metric a) = false) /\
  (forall a b, In a kept -> In b rest -> goes_first minimize (metric b) (metric a) = false).
(** src/ml/hyperband/hyperband.hpp:73-83 [eliminateConfigurations]: the number of configurations to sort
    to the front and to keep.  [configurations] has [num_configurations] elements throughout: lines 47-48
    shrink both alike.  The division is one of signed numbers; a factor of zero, or a negative quotient
    as a position, is undefined behaviour. *)
Definition number_kept (n : nat) (factor : Z) : outcome nat :=
  if (factor =? 0)%Z then UB
  else let q := Z.quot (Z.of_nat n) factor in if (q <? 0)%Z then UB else Ok (Z.to_nat q).

(** src/ml/hyperband/hyperband.hpp:40 *)
Definition good_enough (minimize : bool) (target : Z) (best : option (nat * Z)) : bool :=
  match best with None => false | Some (_, b) => better minimize b target end.

(** src/ml/hyperband/hyperband.hpp:28-49, the loop.  [search ... round configs best rounds result]: from
    these configurations in this round it can end after [rounds] more rounds with this best
    configuration, the evaluations [log] made meanwhile (round, configuration). *)
Inductive search (factor : Z) (minimize : bool) (target : Z) (metric : nat -> nat -> Z) :
  nat -> list nat -> option (nat * Z) -> nat -> list (nat * nat) -> option (nat * Z) -> Prop :=
| search_done : forall round configs best, length configs <= 1 -> search factor minimize target metric round configs best 0 [] best
| search_early : forall round configs best order, 1 < length configs -> Permutation configs order ->
    good_enough minimize target (evaluate_all minimize (metric round) order best) = true ->
    search factor minimize target metric round configs best 1 (map (pair round) order) (evaluate_all minimize (metric round) order best)
| search_next : forall round configs best order n kept rest rounds log result, 1 < length configs -> Permutation configs order ->
    good_enough minimize target (evaluate_all minimize (metric round) order best) = false ->
    number_kept (length configs) factor = Ok n -> partially_sorted minimize (metric round) n configs kept rest ->
    search factor minimize target metric (S round) kept (evaluate_all minimize (metric round) order best) rounds log result ->
    search factor minimize target metric round configs best (S rounds) (map (pair round) order ++ log) result.
(** src/ml/hyperband/hyperband.hpp:21-58 [run]; without a best configuration there is no model to load:
    the exception is caught and the result is null. *)
Definition run (factor : Z) (minimize : bool) (target : Z) (metric : nat -> nat -> Z) (configs : list nat) (log : list (nat * nat)) (result : option nat) : Prop :=
  exists rounds best, search factor minimize target metric 0 configs None rounds log best /\ result = option_map fst best.
(** src/ml/hyperband/hyperband.hpp:23-25: the number of configurations; [asked] is [None] for -1 (the
    largest [size_t]). *)
Definition number_of_configurations (asked : option nat) (space : nat) : nat :=
  let default := Nat.min space (Nat.max 10 (space / 10000)) in
  match asked with None => default | Some n => if n <=? space then n else default end.

(** src/ml/hyperband/hyperband_space.hpp:75-80: removing the batch sizes that are too large; the loop
    erases at [i] and steps back. *)
Fixpoint remove_large (fuel i : nat) (max : Z) (l : list Z) : list Z :=
  match fuel with
  | O => l
  | S fuel =>
      match nth_error l i with
      | None => l
      | Some b => if ((max <? b) && (1 <? b))%Z then remove_large fuel i max (firstn i l ++ skipn (S i) l) else remove_large fuel (S i) max l
      end
  end.

(** src/ml/hyperband/hyperband_random_search.hpp:19-35 [generateRandomConfiguration]: [draws] are the
    configurations as text, in the order in which they are drawn.  It gives what is returned and the
    draws that are left; [None] if there are not enough draws. *)
Fixpoint redraw {A} (eqb : A -> A -> bool) (used : list A) (attempts : nat) (c : A) (draws : list A) : option (A * list A) :=
  if existsb (eqb c) used then
    match draws with
    | [] => None
    | d :: draws => match attempts with
                    | O => None
                    | 1 => Some (d, draws)
                    | S attempts => redraw eqb used attempts d draws
                    end
    end
  else Some (c, draws).
Definition generate {A} (eqb : A -> A -> bool) (used : list A) (draws : list A) : option (A * list A) :=
  match draws with [] => None | c :: draws => redraw eqb used 1000 c draws end.
Fixpoint generate_all {A} (eqb : A -> A -> bool) (n : nat) (used draws : list A) : option (list A) :=
  match n with
  | O => Some []
  | S n => match generate eqb used draws with None => None | Some (c, draws) => option_map (cons c) (generate_all eqb n (c :: used) draws) end
  end.
