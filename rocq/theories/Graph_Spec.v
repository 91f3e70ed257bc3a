(** What a walk over a network should do. *)
From Coq Require Import List Arith Bool.
From Verif Require Import Outcome Graph_Model.
Import ListNotations.

Definition conn (g : graph) (c : nat) : Prop := c < length (conns g).
(** The nodes of a network: its inputs and what is connected to them. *)
Definition node (g : graph) (v : nat) : Prop := In v (heads g) \/ ins g v <> [].
(** Inputs have no predecessors, all other nodes have; there is no cycle. *)
Definition well_formed (g : graph) : Prop :=
  NoDup (heads g) /\ (forall h, In h (heads g) -> ins g h = []) /\ (forall c, conn g c -> node g (from g c)) /\
  exists rank : nat -> nat, forall c, conn g c -> rank (from g c) < rank (to g c).

(** [val] is the value of every node: that of its layer for the values of its predecessors, in the order
    in which they were connected, or for the given input. *)
Definition values {T} (g : graph) (layer : nat -> list T -> outcome T) (given : list T) (val : nat -> T) : Prop :=
  (forall i h x, nth_error (heads g) i = Some h -> nth_error given i = Some x -> layer h [x] = Ok (val h)) /\
  (forall v, ins g v <> [] -> layer v (map (fun c => val (from g c)) (ins g v)) = Ok (val v)).

(** [a] comes before [b] in [l]. *)
Definition before {A} (l : list A) (a b : A) : Prop := exists l1 l2 l3, l = l1 ++ a :: l2 ++ b :: l3.

(** Every node once, each after its predecessors. *)
Definition in_order (g : graph) (l : list nat) : Prop :=
  NoDup l /\ (forall v, In v l <-> node g v) /\ (forall c, conn g c -> before l (from g c) (to g c)).
(** Every node once, each after its successors. *)
Definition in_reverse_order (g : graph) (l : list nat) : Prop :=
  NoDup l /\ (forall v, In v l <-> node g v) /\ (forall c, conn g c -> before l (to g c) (from g c)).

(** No connection holds a tensor. *)
Definition idle {T} (g : graph) (f : nat -> option T) : Prop := forall c, conn g c -> f c = None.
(** The outputs are distinct, and they are nodes without successors. *)
Definition proper_outputs (g : graph) : Prop := NoDup (outputs g) /\ forall o, In o (outputs g) -> node g o /\ outs g o = [].

(** ** Errors sent back *)
(** The errors a node is sent back on its output connections. *)
Definition sent_back {T} (g : graph) (msg : nat -> T) (v : nat) : list T := map msg (outs g v).
(** No layer fails on the errors it gets ([good]), and it sends one error to each predecessor; what the
    layers of the inputs of the network send is of no interest. *)
Definition layers_work {T} (g : graph) (layer_back : nat -> T -> outcome (list T)) (add : T -> T -> T) (divide : T -> nat -> T) (good : nat -> T -> Prop) : Prop :=
  (forall v a b, good v a -> good v b -> good v (add a b)) /\ (forall v a n, good v a -> good v (divide a n)) /\
  (forall v e, node g v -> good v e -> exists es, layer_back v e = Ok es /\ (ins g v <> [] -> Forall2 (fun c x => good (from g c) x) (ins g v) es)).
(** Every node without successors is an output. *)
Definition no_dead_ends (g : graph) : Prop := forall v, node g v -> outs g v = [] -> In v (outputs g).

(** What can be reached from the inputs of a network, which may have cycles. *)
Inductive reachable (g : graph) : nat -> Prop :=
| reach_head : forall h, In h (heads g) -> reachable g h
| reach_conn : forall c, conn g c -> reachable g (from g c) -> reachable g (to g c).
(** [l] lists every node that can be reached once. *)
Definition all_reachable (g : graph) (l : list nat) : Prop := NoDup l /\ forall v, In v l <-> reachable g v.
(** No node feeds more than one other. *)
Definition no_branches (g : graph) : Prop := forall v, length (outs g v) <= 1.
