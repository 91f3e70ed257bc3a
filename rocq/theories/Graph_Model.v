(** Model of the walk over the nodes of a neural network.

    A network is a list of connections between numbered nodes, in the order in which they were created
    with [add] (src/ml/neural_network_node.hpp:289-300): a connection is known by its position, the
    [connectionOutputs] of a node are the connections that start there and its [connectionInputs] those
    that end there, in that order.  What a layer computes is a parameter.  A tensor is a value of any
    type: materializing it (lines 131 and 215) does not change it here.  Nodes and connections are
    alive as long as the network.  Recursion has fuel; running out of it is an outcome of its own. *)
From Coq Require Import List Arith Bool.
From Verif Require Import Outcome.
Import ListNotations.

Record graph := { conns : list (nat * nat); heads : list nat; outputs : list nat }.
Definition from (g : graph) (c : nat) : nat := fst (nth c (conns g) (0, 0)).
Definition to (g : graph) (c : nat) : nat := snd (nth c (conns g) (0, 0)).
Definition outs (g : graph) (v : nat) : list nat := filter (fun c => Nat.eqb (from g c) v) (seq 0 (length (conns g))).
Definition ins (g : graph) (v : nat) : list nat := filter (fun c => Nat.eqb (to g c) v) (seq 0 (length (conns g))).

(** How a call ended: normally, with an exception, or (in the model only) without fuel. *)
Inductive status := Fine | Raised | No_fuel.

(** Assignment to a member of a node or a connection. *)
Definition set_at {A} (f : nat -> A) (i : nat) (x : A) (j : nat) : A := if Nat.eqb j i then x else f j.
Definition clear_all {A} (f : nat -> option A) (l : list nat) : nat -> option A := fold_left (fun f c => set_at f c None) l f.
(** The tensors in a list of members, if none is null. *)
Fixpoint all_some {A} (l : list (option A)) : option (list A) :=
  match l with
  | [] => Some []
  | None :: _ => None
  | Some x :: r => match all_some r with Some xs => Some (x :: xs) | None => None end
  end.

(** ** Forward *)
Section Forward.
Context {T : Type} (g : graph) (layer : nat -> list T -> outcome T).

(** [next_input] of the connections and [lastOutput] of the output nodes; the list of calls of the
    layers' [forward] is recorded. *)
Record fstate := { next_input : nat -> option T; lastOutput : nat -> option T; called : list nat }.

(** src/ml/neural_network_node.hpp:145-148: the loop over the output connections; [arrive] is
    [forwardFromConnection]. *)
Fixpoint send (arrive : nat -> fstate -> fstate * status) (out : T) (cs : list nat) (st : fstate) : fstate * status :=
  match cs with
  | [] => (st, Fine)
  | c :: cs =>
      let st := {| next_input := set_at (next_input st) c (Some out); lastOutput := lastOutput st; called := called st |} in
      match arrive (to g c) st with
      | (st, Fine) => send arrive out cs st
      | r => r
      end
  end.
(** src/ml/neural_network_node.hpp:155-168 [forwardFromConnection]; [exec] is [doForward]. *)
Definition forward_from_connection (exec : nat -> list T -> fstate -> fstate * status) (v : nat) (st : fstate) : fstate * status :=
  match all_some (map (next_input st) (ins g v)) with
  | None => (st, Fine)
  | Some inputs =>
      match exec v inputs st with
      | (st, Fine) => ({| next_input := clear_all (next_input st) (ins g v); lastOutput := lastOutput st; called := called st |}, Fine)
      | r => r
      end
  end.
(** src/ml/neural_network_node.hpp:120-149 [doForward]; [sendOutput] (52-53, 318-320) keeps the tensor in
    an output node and does nothing in others. *)
Fixpoint do_forward (fuel v : nat) (inputs : list T) (st : fstate) : fstate * status :=
  match fuel with
  | O => (st, No_fuel)
  | S fuel =>
      let st := {| next_input := next_input st; lastOutput := lastOutput st; called := called st ++ [v] |} in
      match layer v inputs with
      | Ok out =>
          match outs g v with
          | [] => ({| next_input := next_input st; called := called st;
                      lastOutput := if existsb (Nat.eqb v) (outputs g) then set_at (lastOutput st) v (Some out) else lastOutput st |}, Fine)
          | cs => send (forward_from_connection (do_forward fuel)) out cs st
          end
      | _ => (st, Raised)
      end
  end.
(** src/ml/neural_network.hpp:91-93 *)
Fixpoint forward_heads (fuel : nat) (hs : list (nat * T)) (st : fstate) : fstate * status :=
  match hs with
  | [] => (st, Fine)
  | (h, x) :: hs => match do_forward fuel h [x] st with (st, Fine) => forward_heads fuel hs st | r => r end
  end.
(** src/ml/neural_network.hpp:96-98 and src/ml/neural_network_node.hpp:322-329 [consumeLastOutput];
    materializing a null pointer is undefined behaviour. *)
Fixpoint consume (os : list nat) (last : nat -> option T) : outcome (list T) * (nat -> option T) :=
  match os with
  | [] => (Ok [], last)
  | o :: os => match last o with
               | None => (UB, last)
               | Some x => let '(r, last) := consume os (set_at last o None) in (omap (cons x) r, last)
               end
  end.
(** src/ml/neural_network.hpp:87-101 [predict] *)
Definition predict (fuel : nat) (given : list T) (st : fstate) : fstate * outcome (list T) :=
  if negb (Nat.eqb (length given) (length (heads g))) then (st, Throw)
  else match forward_heads fuel (combine (heads g) given) st with
       | (st, Fine) => let '(r, last) := consume (outputs g) (lastOutput st) in
                       ({| next_input := next_input st; lastOutput := last; called := called st |}, r)
       | (st, _) => (st, Throw)
       end.
(** A series of predictions. *)
Fixpoint predictions (fuel : nat) (givens : list (list T)) (st : fstate) : fstate * list (outcome (list T)) :=
  match givens with
  | [] => (st, [])
  | x :: givens => let '(st, r) := predict fuel x st in let '(st, rs) := predictions fuel givens st in (st, r :: rs)
  end.
(** A network that was just built. *)
Definition fresh : fstate := {| next_input := fun _ => None; lastOutput := fun _ => None; called := [] |}.
End Forward.
Arguments fstate T : clear implicits.

(** ** Backward *)
Section Backward.
Context {T : Type} (g : graph) (layer_back : nat -> T -> outcome (list T)) (add : T -> T -> T) (divide : T -> nat -> T).

(** [prior_error] of the connections; the calls of the layers' [backward] are recorded. *)
Record bstate := { prior_error : nat -> option T; received : list (nat * T) }.

(** src/ml/neural_network_node.hpp:239-256: the error sent to a node with several output connections,
    if all of them have one.  The sum starts with the error that has just come. *)
Fixpoint sum_errors (sum : T) (l : list T) : T := match l with [] => sum | e :: r => sum_errors (add sum e) r end.
Definition averaged (st : bstate) (cs : list nat) (e : T) : option T :=
  match all_some (map (prior_error st) cs) with
  | None => None
  | Some es => Some (divide (sum_errors e es) (length cs))
  end.
(** src/ml/neural_network_node.hpp:223-262: the loop over the input connections; [back] is [backward]. *)
Fixpoint send_back (back : nat -> T -> bstate -> bstate * status) (cs : list nat) (es : list T) (st : bstate) : bstate * status :=
  match cs, es with
  | c :: cs, e :: es =>
      let f := from g c in
      let cont r := match r with (st, Fine) => send_back back cs es st | _ => r end in
      if Nat.eqb (length (outs g f)) 1 then cont (back f e st)
      else
        let st := {| prior_error := set_at (prior_error st) c (Some e); received := received st |} in
        match averaged st (outs g f) e with
        | None => cont (st, Fine)
        | Some a =>
            cont (match back f a st with
                  | (st, Fine) => ({| prior_error := clear_all (prior_error st) (outs g f); received := received st |}, Fine)
                  | r => r
                  end)
        end
  | _, _ => (st, Fine)
  end.
(** src/ml/neural_network_node.hpp:198-264 [backward], without clipping and without [saved]. *)
Fixpoint backward (fuel v : nat) (e : T) (st : bstate) : bstate * status :=
  match fuel with
  | O => (st, No_fuel)
  | S fuel =>
      let st := {| prior_error := prior_error st; received := received st ++ [(v, e)] |} in
      match layer_back v e with
      | Ok es =>
          if negb (match ins g v with [] => true | _ => false end) && negb (Nat.eqb (length es) (length (ins g v))) then (st, Raised)
          else send_back (backward fuel) (ins g v) es st
      | _ => (st, Raised)
      end
  end.
(** src/ml/neural_network.hpp:467-484: the errors of the outputs are sent back, one output after the other. *)
Fixpoint backward_outputs (fuel : nat) (os : list (nat * T)) (st : bstate) : bstate * status :=
  match os with
  | [] => (st, Fine)
  | (o, e) :: os => match backward fuel o e st with (st, Fine) => backward_outputs fuel os st | r => r end
  end.
End Backward.
Arguments bstate T : clear implicits.

(** ** Updating the weights *)
(** src/ml/neural_network_node.hpp:186-194 [apply]: the nodes whose layer's [apply] is called, in order,
    once for every path from the node. *)
Fixpoint apply_calls (g : graph) (fuel v : nat) : list nat :=
  match fuel with O => [] | S fuel => v :: flat_map (fun c => apply_calls g fuel (from g c)) (ins g v) end.

(** ** Saving and loading *)
(** src/ml/neural_network_node.hpp:59-66 [markUnsaved]: the [saved] flags after it. *)
Fixpoint mark_unsaved (g : graph) (fuel v : nat) (saved : nat -> bool) : nat -> bool :=
  match fuel with
  | O => saved
  | S fuel => if saved v then fold_left (fun s c => mark_unsaved g fuel (to g c) s) (outs g v) (set_at saved v false) else saved
  end.
(** src/ml/neural_network_node.hpp:68-76 [saveKnowledge]: the nodes whose layer is saved, in order. *)
Fixpoint save_calls (g : graph) (fuel v : nat) (saved : nat -> bool) : list nat :=
  match fuel with
  | O => []
  | S fuel => if saved v then [] else v :: flat_map (fun c => save_calls g fuel (to g c) saved) (outs g v)
  end.
(** src/ml/neural_network_node.hpp:78-87 [loadKnowledge]: the flags and the nodes whose layer is loaded. *)
Fixpoint load_calls (g : graph) (fuel v : nat) (st : (nat -> bool) * list nat) : (nat -> bool) * list nat :=
  match fuel with
  | O => st
  | S fuel => let '(saved, l) := st in
              if saved v then st else fold_left (fun st c => load_calls g fuel (to g c) st) (outs g v) (set_at saved v true, l ++ [v])
  end.
(** src/ml/neural_network.hpp:257-263 [saveKnowledge] and 280-286 [loadKnowledge] *)
Fixpoint save_knowledge (g : graph) (fuel : nat) (hs : list nat) (saved : nat -> bool) : (nat -> bool) * list nat :=
  match hs with
  | [] => (saved, [])
  | h :: hs => let saved := mark_unsaved g fuel h saved in
               let '(s, l) := save_knowledge g fuel hs saved in (s, save_calls g fuel h saved ++ l)
  end.
Fixpoint load_knowledge (g : graph) (fuel : nat) (hs : list nat) (st : (nat -> bool) * list nat) : (nat -> bool) * list nat :=
  match hs with
  | [] => st
  | h :: hs => load_knowledge g fuel hs (load_calls g fuel h (mark_unsaved g fuel h (fst st), snd st))
  end.

(** ** Counting *)
(** src/ml/neural_network_node.hpp:89-100 [get_parameter_count]; the sums are of unsigned 64-bit numbers,
    here natural numbers. *)
Fixpoint count (g : graph) (params : nat -> nat) (fuel v : nat) (visited : list nat) : nat * list nat :=
  match fuel with
  | O => (0, visited)
  | S fuel =>
      if existsb (Nat.eqb v) visited then (0, visited)
      else fold_left (fun st c => let '(n, vis) := count g params fuel (to g c) (snd st) in (fst st + n, vis)) (outs g v) (params v, v :: visited)
  end.
(** src/ml/neural_network.hpp:348-355 [get_total_parameters] *)
Definition total_parameters (g : graph) (params : nat -> nat) (fuel : nat) : nat :=
  fst (fold_left (fun st h => let '(n, vis) := count g params fuel h (snd st) in (fst st + n, vis)) (heads g) (0, [])).

(** ** One update of the weights *)
(** src/ml/neural_network.hpp:491-493 with the layers' queues of errors: the fully connected and the bias
    layer ([needs_errors]) throw when the queue is empty and empty it otherwise
    (src/ml/layers/fully_connected_layer.hpp:134-157, src/ml/layers/bias_layer.hpp:65-84).  The queues
    after it; [None] for an exception. *)
Fixpoint apply_run (needs_errors : nat -> bool) (calls : list nat) (queue : nat -> nat) : option (nat -> nat) :=
  match calls with
  | [] => Some queue
  | v :: calls => if needs_errors v && Nat.eqb (queue v) 0 then None else apply_run needs_errors calls (set_at queue v 0)
  end.
Definition update_weights (g : graph) (needs_errors : nat -> bool) (fuel : nat) (queue : nat -> nat) : option (nat -> nat) :=
  apply_run needs_errors (flat_map (apply_calls g fuel) (outputs g)) queue.

(** ** The [saved] flags over time *)
(** Saving, loading, or a finished update of the weights, which clears the flag of every node whose
    [apply] is called (src/ml/neural_network_node.hpp:193; line 263 clears that of nodes whose [backward]
    is called, which are among them).  An interrupted save, load or training is not modelled. *)
Inductive action := Save | Load | Train.
Definition act (g : graph) (fuel : nat) (a : action) (saved : nat -> bool) : (nat -> bool) * list nat :=
  match a with
  | Save => save_knowledge g fuel (heads g) saved
  | Load => load_knowledge g fuel (heads g) (saved, [])
  | Train => (fun v => if existsb (Nat.eqb v) (flat_map (apply_calls g fuel) (outputs g)) then false else saved v, [])
  end.
Fixpoint history (g : graph) (fuel : nat) (actions : list action) (saved : nat -> bool) : nat -> bool :=
  match actions with [] => saved | a :: actions => history g fuel actions (fst (act g fuel a saved)) end.
(** src/ml/neural_network_node.hpp:39: a new node counts as saved. *)
Definition built : nat -> bool := fun _ => true.
