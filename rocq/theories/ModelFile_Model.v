(** Model of how a network is described, built, saved and loaded: src/ml/happyml_dsl.hpp, with the saving of
    the description in src/ml/neural_network.hpp.

    A vertex is known by its [vertexUniqueId], counting from 1 in the order of creation, so the vertices are a list.
    The layers themselves are modelled elsewhere; of their constructors only the exceptions matter here.
    [addEdge], which the other functions use, is also public; calls of it from outside are not modelled.
    After an exception nothing more is done. Recursion without end is undefined behaviour. *)
From Coq Require Import Ascii String List Bool Arith NArith Reals.
From Verif Require Import Chars Outcome Lines_Model Delimited_Model NumText_Model.
Import ListNotations.

(** src/ml/enums.hpp:15-53 *)
Inductive optimizer_type := sgd | adam | sgdm | adam_with_decaying_momentum | sgdm_with_decaying_momentum.
Inductive loss_type := mse | mae | smae | categoricalCrossEntropy | binaryCrossEntropy.
Inductive layer_type := full | convolution2dValid | concatenate | flatten | normalize | dropout.
Inductive activation := relu | tanhDefault | sigmoid | leaky | softmax | sigmoidApprox | tanhApprox | linear.

(** src/ml/enums.hpp:60-222: the names, and the values of the names in the order they are tried. *)
Definition activationTypeToString (a : activation) : str :=
  match a with relu => lit "relu" | tanhDefault => lit "tanh" | sigmoid => lit "sigmoid" | leaky => lit "leaky" | softmax => lit "softmax"
             | sigmoidApprox => lit "sigmoidApprox" | tanhApprox => lit "tanhApprox" | linear => lit "linear" end.
Definition nodeTypeToString (t : layer_type) : str :=
  match t with full => lit "full" | convolution2dValid => lit "convolution2dValid" | concatenate => lit "concatenate" | flatten => lit "flatten"
             | normalize => lit "normalize" | dropout => lit "dropout" end.
Definition lossTypeToString (l : loss_type) : str :=
  match l with mse => lit "mse" | mae => lit "mae" | smae => lit "smae" | categoricalCrossEntropy => lit "categoricalCrossEntropy" | binaryCrossEntropy => lit "binaryCrossEntropy" end.
Definition optimizerTypeToString (o : optimizer_type) : str :=
  match o with sgd => lit "SGD" | adam_with_decaying_momentum => lit "Adam with Decaying Momentum" | adam => lit "Adam"
             | sgdm_with_decaying_momentum => lit "SGDM with Decaying Momentum" | sgdm => lit "SGDM" end.
Fixpoint by_name {A} (name : A -> str) (all : list A) (s : str) : outcome A :=
  match all with [] => Throw | a :: r => if seq_eqb s (name a) then Ok a else by_name name r s end.
Definition stringToActivationType := by_name activationTypeToString [relu; tanhDefault; sigmoid; leaky; softmax; sigmoidApprox; tanhApprox; linear].
Definition stringToNodeType := by_name nodeTypeToString [full; convolution2dValid; concatenate; flatten; normalize; dropout].
Definition stringToLossType := by_name lossTypeToString [mse; mae; smae; categoricalCrossEntropy; binaryCrossEntropy].
Definition stringToOptimizerType := by_name optimizerTypeToString [sgd; adam_with_decaying_momentum; adam; sgdm_with_decaying_momentum; sgdm].

Definition layer_eqb (a b : layer_type) : bool :=
  match a, b with
  | full, full | convolution2dValid, convolution2dValid | concatenate, concatenate | flatten, flatten | normalize, normalize | dropout, dropout => true
  | _, _ => false
  end.
(** Layers that take weights: the condition of several setters. *)
Definition weighted (t : layer_type) : bool := layer_eqb t full || layer_eqb t convolution2dValid.

(** Rows, columns and channels. *)
Notation shape := (N * N * N)%type.
(** src/ml/happyml_dsl.hpp:648-669: an [NNVertex]; [edges] are the ids of the vertices it feeds. *)
Record vertex := {
  node_type : layer_type; activation_type : activation; acceptsInput : bool; producesOutput : bool; materialized : bool; use_bias : bool; bits : N;
  inputShapes : list shape; outputShape : shape; filters : N; kernel_size : N; use_l2_regularization : bool; use_normalization : bool;
  use_norm_clipping : bool; norm_clipping_threshold : R; dropout_rate : R; regularization_strength : R; edges : list nat }.

(** src/ml/happyml_dsl.hpp:133-160 *)
Definition new_plain (t : layer_type) (input output : shape) (for_output given : bool) (a : activation) : outcome vertex :=
  if for_output && negb (layer_eqb t full) then Throw
  else Ok {| node_type := t; activation_type := a; acceptsInput := given; producesOutput := for_output; materialized := false; use_bias := false; bits := 32;
             inputShapes := [input]; outputShape := output; filters := 0; kernel_size := 0; use_l2_regularization := layer_eqb t full; use_normalization := false;
             use_norm_clipping := false; norm_clipping_threshold := 5; dropout_rate := 0; regularization_strength := to_float (2 / 100); edges := [] |}.
(** [size_t] arithmetic. *)
Definition window_places (length kernel : N) : N := ((length + two64 - kernel + 1) mod two64)%N.
(** src/ml/happyml_dsl.hpp:163-190 *)
Definition new_filters (t : layer_type) (input : shape) (count kernel : N) (for_output given : bool) (a : activation) : outcome vertex :=
  if for_output && negb (layer_eqb t convolution2dValid) then Throw
  else Ok {| node_type := t; activation_type := a; acceptsInput := given; producesOutput := for_output; materialized := true; use_bias := false; bits := 32;
             inputShapes := [input]; outputShape := let '(r, c, _) := input in (window_places r kernel, window_places c kernel, count);
             filters := count; kernel_size := kernel; use_l2_regularization := false; use_normalization := false;
             use_norm_clipping := false; norm_clipping_threshold := 5; dropout_rate := 0; regularization_strength := to_float (2 / 100); edges := [] |}.
(** src/ml/happyml_dsl.hpp:192-215 *)
Definition new_concat (inputs : list shape) (output : shape) : vertex :=
  {| node_type := concatenate; activation_type := linear; acceptsInput := false; producesOutput := false; materialized := false; use_bias := false; bits := 32;
     inputShapes := inputs; outputShape := output; filters := 0; kernel_size := 0; use_l2_regularization := false; use_normalization := false;
     use_norm_clipping := false; norm_clipping_threshold := 5; dropout_rate := 0; regularization_strength := to_float (2 / 100); edges := [] |}.

(** src/ml/happyml_dsl.hpp:217-269, 644-646: the setters. *)
Inductive setting := Use_l2 (b : bool) | Strength (s : R) | Use_normalization (b : bool) | Use_bias (b : bool) | Bits (n : N) | Materialized (b : bool)
  | Use_norm_clipping (b : bool) | Norm_clipping_threshold (x : R) | Dropout_rate (x : R).
Definition set_vertex (s : setting) (v : vertex) : outcome vertex :=
  let guarded (b : bool) v' := if b && negb (weighted (node_type v)) then Throw else Ok v' in
  let '(Build_vertex t a i o m ub bt ins out fl ks l2 nm cl th dr rs es) := v in
  match s with
  | Use_l2 b => guarded b (Build_vertex t a i o m ub bt ins out fl ks b nm cl th dr rs es)
  | Strength x => Ok (Build_vertex t a i o m ub bt ins out fl ks l2 nm cl th dr x es)
  | Use_normalization b => guarded b (Build_vertex t a i o m ub bt ins out fl ks l2 b cl th dr rs es)
  | Use_bias b => guarded b (Build_vertex t a i o m b bt ins out fl ks l2 nm cl th dr rs es)
  | Bits n => Ok (Build_vertex t a i o m ub n ins out fl ks l2 nm cl th dr rs es)
  | Materialized b => guarded b (Build_vertex t a i o b ub bt ins out fl ks l2 nm cl th dr rs es)
  | Use_norm_clipping b => Ok (Build_vertex t a i o m ub bt ins out fl ks l2 nm b th dr rs es)
  | Norm_clipping_threshold x => Ok (Build_vertex t a i o m ub bt ins out fl ks l2 nm true x dr rs es)
  | Dropout_rate x => Ok (Build_vertex t a i o m ub bt ins out fl ks l2 nm cl th x rs es)
  end.
Definition with_edges (es : list nat) (v : vertex) : vertex :=
  let '(Build_vertex t a i o m ub bt ins out fl ks l2 nm cl th dr rs _) := v in Build_vertex t a i o m ub bt ins out fl ks l2 nm cl th dr rs es.

(** src/ml/happyml_dsl.hpp:775-783: a [HappymlDSL]; [inputReceptors] by id. *)
Record dsl := { optimizer : optimizer_type; learningRate : R; biasLearningRate : R; loss : loss_type; vertices : list vertex; inputReceptors : list nat }.
Definition with_vertices (d : dsl) (vs : list vertex) : dsl :=
  {| optimizer := optimizer d; learningRate := learningRate d; biasLearningRate := biasLearningRate d; loss := loss d; vertices := vs; inputReceptors := inputReceptors d |}.
Definition with_receptors (d : dsl) (l : list nat) : dsl :=
  {| optimizer := optimizer d; learningRate := learningRate d; biasLearningRate := biasLearningRate d; loss := loss d; vertices := vertices d; inputReceptors := l |}.
(** src/ml/happyml_dsl.hpp:40-59 (the rates are then set, lines 62-70, by all callers modelled). *)
Definition new_dsl (o : optimizer_type) (rate bias_rate : R) (l : loss_type) : dsl :=
  {| optimizer := o; learningRate := rate; biasLearningRate := bias_rate; loss := l; vertices := []; inputReceptors := [] |}.
Definition vertex_at (d : dsl) (id : nat) : outcome vertex := if Nat.eqb id 0 then UB else vec_at (vertices d) (id - 1).
(** src/ml/happyml_dsl.hpp:121-125 [nextVertexId] *)
Definition next_id (d : dsl) : nat := S (length (vertices d)).
Fixpoint update {A} (n : nat) (f : A -> A) (l : list A) : list A :=
  match l, n with [], _ => [] | x :: r, O => f x :: r | x :: r, S n => x :: update n f r end.
(** src/ml/happyml_dsl.hpp:367-372 [addEdge] *)
Definition add_edge (from to : nat) (d : dsl) : dsl := with_vertices d (update (from - 1) (fun v => with_edges (edges v ++ [to]) v) (vertices d)).
Definition add_vertex (v : vertex) (d : dsl) : dsl := with_vertices d (vertices d ++ [v]).

(** src/ml/happyml_dsl.hpp:672-728 [addInputLayer], [addInputOutputLayer] *)
Definition add_input (t : layer_type) (input output : shape) (for_output : bool) (a : activation) (d : dsl) : outcome dsl :=
  do v <- new_plain t input output for_output true a;
  Ok (with_receptors (add_vertex v d) (inputReceptors d ++ [next_id d])).
Definition add_input_filters (t : layer_type) (input : shape) (count kernel : N) (for_output : bool) (a : activation) (d : dsl) : outcome dsl :=
  do v <- new_filters t input count kernel for_output true a;
  Ok (with_receptors (add_vertex v d) (inputReceptors d ++ [next_id d])).
(** src/ml/happyml_dsl.hpp:356-365, to which 277-283, 309-318 and, with the shape of the parent twice, 336-354
    come down *)
Definition add_layer (parent : nat) (input output : shape) (t : layer_type) (for_output : bool) (a : activation) (d : dsl) : outcome dsl :=
  do p <- vertex_at d parent;
  do v <- new_plain t input output for_output false a;
  Ok (add_edge parent (next_id d) (add_vertex v d)).
(** src/ml/happyml_dsl.hpp:325-334, to which 285-307 (without its last check) and 320-323 come down *)
Definition add_filters (parent : nat) (count kernel : N) (t : layer_type) (for_output : bool) (a : activation) (d : dsl) : outcome dsl :=
  do p <- vertex_at d parent;
  do v <- new_filters t (outputShape p) count kernel for_output false a;
  Ok (add_edge parent (next_id d) (add_vertex v d)).
Definition width (s : shape) : N := snd (fst s).
(** src/ml/happyml_dsl.hpp:756-773 [add_concatenated_layer] *)
Definition add_concatenated (parents : list nat) (d : dsl) : outcome dsl :=
  do ps <- omapM (vertex_at d) parents;
  let shapes := map outputShape ps in
  let total := fold_left (fun sum s => ((sum + width s) mod two64)%N) shapes 0%N in
  Ok (fold_left (fun d' p => add_edge p (next_id d) d') parents (add_vertex (new_concat shapes (1, total, 1)%N) d)).
Definition change (s : setting) (id : nat) (d : dsl) : outcome dsl :=
  do v <- vertex_at d id; do v <- set_vertex s v; Ok (with_vertices d (update (id - 1) (fun _ => v) (vertices d))).

(** What a user may call, in any order. *)
Inductive call :=
| Add_input (t : layer_type) (input output : shape) (for_output : bool) (a : activation)
| Add_input_filters (t : layer_type) (input : shape) (count kernel : N) (for_output : bool) (a : activation)
| Add_layer (parent : nat) (input output : shape) (t : layer_type) (for_output : bool) (a : activation)
| Add_filters (parent : nat) (count kernel : N) (t : layer_type) (for_output : bool) (a : activation)
| Add_concatenated (parents : list nat)
| Change (s : setting) (id : nat).
Definition run_call (c : call) (d : dsl) : outcome dsl :=
  match c with
  | Add_input t i o f a => add_input t i o f a d
  | Add_input_filters t i n k f a => add_input_filters t i n k f a d
  | Add_layer p i o t f a => add_layer p i o t f a d
  | Add_filters p n k t f a => add_filters p n k t f a d
  | Add_concatenated ps => add_concatenated ps d
  | Change s id => change s id d
  end.
Fixpoint run (cs : list call) (d : dsl) : outcome dsl :=
  match cs with [] => Ok d | c :: cs => do d <- run_call c d; run cs d end.

(** ** Building *)
(** src/ml/happyml_dsl.hpp:416-475: the exceptions of the layers' constructors, which are those of
    src/ml/layers/concatenate_wide_layer.hpp:18-41 and src/ml/layers/dropout_layer.hpp:14-21. *)
Definition construct (v : vertex) : outcome unit :=
  match node_type v with
  | concatenate =>
      match inputShapes v with
      | (r, _, k) :: _ :: _ => if forallb (fun '(r', _, k') => N.eqb r' r && N.eqb k' k) (inputShapes v) then Ok tt else Throw
      | _ => Throw
      end
  | dropout => if Rlt_dec (dropout_rate v) 0 then Throw else if Rlt_dec 1 (dropout_rate v) then Throw else Ok tt
  | _ => Ok tt
  end.
Notation text_record := (list str).
Definition asString_id (id : nat) : str := asString_uint (N.of_nat id).
(** src/ml/happyml_dsl.hpp:388-415: the record of a vertex. *)
Definition vertex_record (id : nat) (v : vertex) : text_record :=
  [lit "vertex"; asString_id id; asString_bool (acceptsInput v); asString_bool (producesOutput v); nodeTypeToString (node_type v);
   activationTypeToString (activation_type v); asString_bool (materialized v); asString_bool (use_bias v); asString_uint (bits v);
   asString_uint (N.of_nat (length (inputShapes v)))]
  ++ flat_map (fun '(r, c, k) => [asString_uint r; asString_uint c; asString_uint k]) (inputShapes v)
  ++ (let '(r, c, k) := outputShape v in [asString_uint r; asString_uint c; asString_uint k])
  ++ [asString_uint (filters v); asString_uint (kernel_size v); asString_bool (use_l2_regularization v); asString_bool (use_normalization v);
      asString_bool (use_norm_clipping v); asString_float (norm_clipping_threshold v); asString_float (dropout_rate v); asString_float (regularization_strength v)].
Definition edge_record (id : nat) (to : list nat) : text_record := lit "edge" :: asString_id id :: map asString_id to.

(** What building has done so far: the vertices whose [first_node] is set, the records, and the connections
    between vertices in the order they were made. *)
Record building := { built : list nat; records : list text_record; connections : list (nat * nat) }.
(** src/ml/happyml_dsl.hpp:382-527 [buildLayer] *)
Fixpoint build_layer (fuel : nat) (d : dsl) (id : nat) (b : building) : outcome building :=
  match fuel with
  | O => UB
  | S fuel =>
      if existsb (Nat.eqb id) (built b) then Ok b
      else
        do v <- vertex_at d id;
        do _ <- construct v;
        do b <- (fix children (es : list nat) (b : building) : outcome building :=
                  match es with
                  | [] => Ok b
                  | e :: es => do b <- build_layer fuel d e b;
                               children es {| built := built b; records := records b; connections := connections b ++ [(id, e)] |}
                  end) (edges v) {| built := id :: built b; records := records b ++ [vertex_record id v]; connections := connections b |};
        Ok (match edges v with [] => b | es => {| built := built b; records := records b ++ [edge_record id es]; connections := connections b |} end)
  end.
(** src/ml/happyml_dsl.hpp:91-119 [build], for a [HappymlDSL] that was not built before. *)
Definition build (d : dsl) : outcome building :=
  let header := [[lit "optimizer"; optimizerTypeToString (optimizer d)]; [lit "learningRate"; asString_float (learningRate d)];
                 [lit "biasLearningRate"; asString_float (biasLearningRate d)]; [lit "loss"; lossTypeToString (loss d)]] in
  fold_left (fun b head => do b <- b; build_layer (S (length (vertices d))) d head b) (inputReceptors d) (Ok {| built := []; records := header; connections := [] |}).
(** src/ml/neural_network.hpp:235-240: what is written to "model.config". *)
Definition config_file (in_range : str -> bool) (b : building) : str := write_records in_range ":" (records b).

(** ** Loading *)
(** [std::map] with numbers as keys: its entries in order. *)
Fixpoint put {A} (k : N) (x : A) (m : list (N * A)) : list (N * A) :=
  match m with
  | [] => [(k, x)]
  | (j, y) :: r => if (k <? j)%N then (k, x) :: m else if (k =? j)%N then (k, x) :: r else (j, y) :: put k x r
  end.
Fixpoint find {A} (k : N) (m : list (N * A)) : option A :=
  match m with [] => None | (j, y) :: r => if (k =? j)%N then Some y else find k r end.

Definition read_shape (m : text_record) (offset : nat) : outcome shape :=
  do a <- vec_at m offset; do r <- stoull a; do b <- vec_at m (offset + 1); do c <- stoull b; do e <- vec_at m (offset + 2); do k <- stoull e; Ok (r, c, k).
Fixpoint read_shapes (count : nat) (m : text_record) (offset : nat) : outcome (list shape) :=
  match count with O => Ok [] | S count => do s <- read_shape m offset; do l <- read_shapes count m (offset + 3); Ok (s :: l) end.
(** src/ml/happyml_dsl.hpp:802-841: the fields of a vertex record, as a vertex without edges, with its id. *)
Definition read_vertex (m : text_record) : outcome (N * vertex) :=
  do s1 <- vec_at m 1; do id <- stoul32 s1;
  do s2 <- vec_at m 2; do s3 <- vec_at m 3;
  do s4 <- vec_at m 4; do t <- stringToNodeType s4;
  do s5 <- vec_at m 5; do a <- stringToActivationType s5;
  do s6 <- vec_at m 6; do s7 <- vec_at m 7;
  do s8 <- vec_at m 8; do bt <- stoull s8;
  do s9 <- vec_at m 9; do n <- stoull s9;
  do ins <- read_shapes (N.to_nat n) m 10;
  let o := 10 + 3 * N.to_nat n in
  do out <- read_shape m o;
  do s10 <- vec_at m (o + 3); do fl <- stoull s10;
  do s11 <- vec_at m (o + 4); do ks <- stoull s11;
  do s12 <- vec_at m (o + 5); do s13 <- vec_at m (o + 6); do s14 <- vec_at m (o + 7);
  do s15 <- vec_at m (o + 8); do th <- stof s15;
  do s16 <- vec_at m (o + 9); do dr <- stof s16;
  do s17 <- vec_at m (o + 10); do rs <- stof s17;
  Ok (id, {| node_type := t; activation_type := a; acceptsInput := asBool s2; producesOutput := asBool s3; materialized := asBool s6; use_bias := asBool s7;
             bits := (bt mod 256)%N; inputShapes := ins; outputShape := out; filters := fl; kernel_size := ks; use_l2_regularization := asBool s12;
             use_normalization := asBool s13; use_norm_clipping := asBool s14; norm_clipping_threshold := th; dropout_rate := dr; regularization_strength := rs; edges := [] |}).

(** src/ml/happyml_dsl.hpp:875-892: the vertices created for the sources of the edges to [id], in the order of the
    sources' numbers; [None] when one is missing. *)
Fixpoint all_parents (id : N) (edgeFromTo : list (N * list N)) (created : list (N * nat)) : option (list nat) :=
  match edgeFromTo with
  | [] => Some []
  | (from, tos) :: r =>
      if existsb (N.eqb id) tos
      then match find from created with
           | None => None
           | Some p => match all_parents id r created with Some l => Some (p :: l) | None => None end
           end
      else all_parents id r created
  end.
(** src/ml/happyml_dsl.hpp:843-910: one vertex; [None] when a concatenation has to wait. *)
Definition create_one (id : N) (v : vertex) (parent : option nat) (edgeFromTo : list (N * list N)) (d : dsl) (created : list (N * nat)) : outcome (option dsl) :=
  if acceptsInput v then
    match inputShapes v with
    | _ :: _ :: _ => Throw
    | [] => UB
    | [input] =>
        omap Some (if (0 <? filters v)%N then add_input_filters (node_type v) input (filters v) (kernel_size v) (producesOutput v) (activation_type v) d
                   else add_input (node_type v) input (outputShape v) (producesOutput v) (activation_type v) d)
    end
  else
    match parent with
    | None => Throw
    | Some p =>
        if layer_eqb (node_type v) concatenate then
          match all_parents id edgeFromTo created with
          | None => Ok None
          | Some ps => omap Some (add_concatenated ps d)
          end
        else if (0 <? filters v)%N then omap Some (add_filters p (filters v) (kernel_size v) (node_type v) (producesOutput v) (activation_type v) d)
        else if producesOutput v && negb (layer_eqb (node_type v) full) then Throw
        else match inputShapes v with [] => UB | input :: _ => omap Some (add_layer p input (outputShape v) (node_type v) (producesOutput v) (activation_type v) d) end
    end.
(** src/ml/happyml_dsl.hpp:911-919 *)
Definition settings (v : vertex) : list setting :=
  [Materialized (materialized v); Use_bias (use_bias v); Bits (bits v); Use_l2 (use_l2_regularization v); Strength (regularization_strength v);
   Use_normalization (use_normalization v); Norm_clipping_threshold (norm_clipping_threshold v); Use_norm_clipping (use_norm_clipping v); Dropout_rate (dropout_rate v)].
Fixpoint change_all (ss : list setting) (id : nat) (d : dsl) : outcome dsl :=
  match ss with [] => Ok d | s :: ss => do d <- change s id d; change_all ss id d end.
(** src/ml/happyml_dsl.hpp:796-936 [createVertexFromMetadata] *)
Fixpoint create (fuel : nat) (vertexes : list (N * text_record)) (edgeFromTo : list (N * list N)) (m : text_record) (parent : option nat)
    (st : dsl * list (N * nat)) : outcome (dsl * list (N * nat)) :=
  match fuel with
  | O => UB
  | S fuel =>
      do x <- read_vertex m;
      let '(id, v) := x in
      let '(d, created) := st in
      do made <- create_one id v parent edgeFromTo d created;
      match made with
      | None => Ok st
      | Some d' =>
          let new := next_id d in
          do d' <- change_all (settings v) new d';
          (fix next (es : list N) (st : dsl * list (N * nat)) : outcome (dsl * list (N * nat)) :=
             match es with
             | [] => Ok st
             | e :: es => match find e vertexes with
                          | None => Throw
                          | Some m => do st <- create fuel vertexes edgeFromTo m (find id (snd st)) st; next es st
                          end
             end) (match find id edgeFromTo with Some es => es | None => [] end) (d', put id new created)
      end
  end.
(** src/ml/happyml_dsl.hpp:974-995: the records after the first four; heads are a [set]. *)
Fixpoint read_graph (rs : list text_record) (heads : list (N * unit)) (vertexes : list (N * text_record)) (edgeFromTo : list (N * list N))
  : outcome (list (N * unit) * list (N * text_record) * list (N * list N)) :=
  match rs with
  | [] => Ok (heads, vertexes, edgeFromTo)
  | r :: rs =>
      do kind <- vec_at r 0; do s <- vec_at r 1; do id <- stoul32 s;
      if seq_eqb kind (lit "vertex")
      then do input <- vec_at r 2; read_graph rs (if asBool input then put id tt heads else heads) (put id r vertexes) edgeFromTo
      else do tos <- omapM stoul32 (skipn 2 r); read_graph rs heads vertexes (put id tos edgeFromTo)
  end.
Definition named (name : str) (r : text_record) : outcome str := do s <- vec_at r 0; if seq_eqb s name then vec_at r 1 else Throw.
(** src/ml/happyml_dsl.hpp:938-1010 [loadNeuralNetworkForTraining], up to [build] and [loadKnowledge]: the
    description; the recursion is given more fuel than there are vertices.  After the last record
    [nextRecord] gives one empty field. *)
Definition load_records (rs : list text_record) : outcome dsl :=
  let record i := nth i rs [[]] in
  do s <- named (lit "optimizer") (record 0); do o <- stringToOptimizerType s;
  do s <- named (lit "learningRate") (record 1); do rate <- stof s;
  do s <- named (lit "biasLearningRate") (record 2); do bias_rate <- stof s;
  do s <- named (lit "loss") (record 3); do l <- stringToLossType s;
  do g <- read_graph (skipn 4 rs) [] [] [];
  let '(heads, vertexes, edgeFromTo) := g in
  do st <- fold_left (fun st head => do st <- st;
                       match find (fst head) vertexes with
                       | None => UB
                       | Some m => create (S (length vertexes)) vertexes edgeFromTo m None st
                       end) heads (Ok (new_dsl o rate bias_rate l, []));
  Ok (fst st).
Definition load_config (file : str) : outcome dsl :=
  do rs <- read_records ":" (length file) (open_path [file] false); load_records rs.

(** ** Files of the layers *)
(** src/ml/happyml_dsl.hpp:425, 465, 482 with src/ml/layers/fully_connected_layer.hpp:40-48, bias_layer.hpp:33-41 and
    convolution_2d_valid_layer.hpp:36-52: the files the layers of a vertex are saved to and loaded from. *)
Definition files_of (id : nat) (v : vertex) : list str :=
  (match node_type v with
   | full => [asString_id id ++ lit "_full.tensor"]
   | convolution2dValid => map (fun i => asString_id id ++ lit "_c2dv_" ++ asString_id i ++ lit ".tensor") (seq 0 (N.to_nat (filters v)))
   | _ => []
   end) ++ (if use_bias v then [asString_id id ++ lit "_bias.tensor"] else []).
Definition knowledge_files (d : dsl) : list str :=
  concat (map (fun '(id, v) => files_of id v) (combine (seq 1 (length (vertices d))) (vertices d))).
