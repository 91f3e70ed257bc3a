(** Model of the network that is made for a task: src/util/task_utils.hpp.

    Simplifications, for every definition in this file: sizes do not overflow [size_t]; the complexity is an exact
    rational number and products with it are exact, where the code has [double]; shapes have three numbers, as all
    columns of a dataset have. *)
From Coq Require Import List Arith Bool NArith ZArith QArith Qround.
From Verif Require Import Outcome ModelFile_Model.
Import ListNotations.
Local Open Scope nat_scope.

(** A given column of a dataset: whether its purpose is 'I', and its shape. *)
Record column := { picture : bool; size : shape }.
(** The goals that make a difference. *)
Inductive goal := Speed | Memory | Other_goal.
Definition is_speed (g : goal) : bool := match g with Speed => true | _ => false end.
Definition is_memory (g : goal) : bool := match g with Memory => true | _ => false end.

(** src/util/task_utils.hpp:436-459 *)
Definition task_optimizer (g : goal) : optimizer_type := if is_memory g then sgd else adam.
Definition task_loss (g : goal) (expected : list shape) : loss_type :=
  match expected with
  | [(r, c, k)] => if is_speed g then mse else if (N.eqb r 1 && N.eqb c 1 && N.eqb k 1)%bool then binaryCrossEntropy else categoricalCrossEntropy
  | _ => mse
  end.
Definition is_categorical (l : loss_type) : bool := match l with categoricalCrossEntropy => true | _ => false end.

Definition values_of (s : shape) : N := let '(r, c, k) := s in (r * c * k)%N.
Definition total_values (l : list shape) : N := fold_right (fun s n => (values_of s + n)%N) 0%N l.
Definition times (n : N) (q : Q) : N := Z.to_N (Qfloor (inject_Z (Z.of_N n) * q)).
(** src/util/task_utils.hpp:16-48 *)
Definition size_given_expected (given expected : list shape) (complexity : Q) : N := N.min (total_values given) (times (total_values expected) ((1 # 4) + complexity)).
(** src/util/task_utils.hpp:50-64 *)
Definition size_expected (expected : list shape) (complexity : Q) : N := times (total_values expected) complexity.

Section Program.
Context (given : list column) (expected : list shape) (g : goal) (complexity : Q).
Definition size1 : N := size_given_expected (map size given) expected complexity.
Definition categorical : bool := is_categorical (task_loss g expected).
(** src/util/task_utils.hpp:251-273, with src/ml/happyml_dsl.hpp:739-773: the calls up to the first layer,
    its number and its output shape, and whether it is a convolution.  Without a given column [get_given_metadata(0)] is undefined. *)
Definition first_layer : outcome (list call * nat * shape * bool) :=
  match given with
  | [] => UB
  | [c] =>
      if picture c
      then Ok ([Add_input_filters convolution2dValid (size c) 1 3 false leaky; Change (Use_bias true) 1], 1,
               (let '(h, w, _) := size c in (window_places h 3, window_places w 3, 1%N)), true)
      else Ok ([Add_input full (size c) (1, size1, 1)%N false leaky; Change (Use_bias true) 1], 1, (1, size1, 1)%N, false)
  | _ =>
      let n := length given in
      Ok (map (fun c => Add_input flatten (size c) (1, values_of (size c), 1)%N false linear) given
          ++ [Add_concatenated (seq 1 n); Add_layer (S n) (1, total_values (map size given), 1)%N (1, size1, 1)%N full false leaky],
          S (S n), (1, size1, 1)%N, false)
  end.
(** src/util/task_utils.hpp:274-282, 291-309: the settings of the two hidden layers. *)
Definition settings (id : nat) : list call :=
  [Change (Use_l2 true) id; Change (Use_norm_clipping true) id]
  ++ (if categorical then [Change (Use_normalization true) id] else [])
  ++ (if is_memory g then [Change (Bits 8) id; Change (Materialized false) id] else []).
(** src/util/task_utils.hpp:321-332 *)
Fixpoint outputs_from (parent : nat) (input : shape) (id : nat) (l : list shape) : list call :=
  match l with
  | [] => []
  | s :: l => [Add_layer parent input s full true (if categorical then softmax else sigmoid); Change (Use_bias true) id] ++ outputs_from parent input (S id) l
  end.
(** src/util/task_utils.hpp:283-332: the rest, after the first layer, which has number [b] and output shape [o1].
    Dropout layers get the shape of their parent twice, and no rate (src/ml/happyml_dsl.hpp:336-344). *)
Definition hidden_size (convolutional : bool) : N := if convolutional then size1 else size_expected expected complexity.
Definition rest (b : nat) (o1 : shape) (convolutional : bool) : list call :=
  let o2 := (1, hidden_size convolutional, 1)%N in
  settings b
  ++ [Add_layer b o1 o1 dropout false linear; Add_layer (S b) o1 o2 full false leaky; Change (Use_bias true) (S (S b))]
  ++ settings (S (S b))
  ++ [Add_layer (S (S b)) o2 o2 dropout false linear]
  ++ (if categorical
      then Add_layer (3 + b) o2 (1, total_values expected, 1)%N full false sigmoid :: outputs_from (4 + b) (1, total_values expected, 1)%N (5 + b) expected
      else outputs_from (3 + b) o2 (4 + b) expected).
(** src/util/task_utils.hpp:213-335 [build_neural_network_for_label], up to [build] *)
Definition task_program : outcome (list call) :=
  do f <- first_layer; let '(cs, b, o1, convolutional) := f in Ok (cs ++ rest b o1 convolutional).
End Program.
