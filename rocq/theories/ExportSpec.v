(** * Running an ONNX graph: what the ONNX documentation says about graphs and
    about the operators of the default domain (opset 18 and later), for the
    attributes and inputs given to them; plus the two custom operators the
    exporter registers with onnxruntime_extensions.  Elements are real numbers.
    Nothing here refers to the layers of the tool. *)
From Coq Require Import String.
From Coq Require Import ZArith List Lia Bool Reals.
Import ListNotations.
Open Scope Z_scope.
From Verif Require Import CMem Num RealInst Reduce OnnxSpec OnnxWindowSpec OnnxLinearSpec OnnxMiscSpec.

(** Tensors have an element type: a floating-point one or INT64. *)
Inductive tensor := TFloat (ds : list Z) (x : list R) | TInt (ds : list Z) (l : list Z).
(** Attributes have a type too: INT, INTS, FLOAT, STRING. *)
Inductive attr := AInt (n : Z) | AInts (l : list Z) | AFloat (v : R) | AStr (s : string).
Definition attrs := list (string * attr).
Record node := mkONode { n_op : string; n_attrs : attrs; n_inputs : list string; n_output : string }.
Record onnx_graph := mkOGraph {
  g_inputs : list (string * list Z); g_init : list (string * tensor); g_nodes : list node; g_outputs : list (string * list Z) }.

Fixpoint attr_of (nm : string) (a : attrs) : option attr :=
  match a with [] => None | (k, v) :: r => if String.eqb k nm then Some v else attr_of nm r end.
(** The value of an attribute, its default when absent; [None] when there is no
    default or when the attribute has another type. *)
Definition int_attr nm (def : option Z) a := match attr_of nm a with None => def | Some (AInt n) => Some n | Some _ => None end.
Definition ints_attr nm (def : option (list Z)) a := match attr_of nm a with None => def | Some (AInts l) => Some l | Some _ => None end.
Definition float_attr nm (def : option R) a := match attr_of nm a with None => def | Some (AFloat v) => Some v | Some _ => None end.
Definition str_attr nm (def : option string) a := match attr_of nm a with None => def | Some (AStr v) => Some v | Some _ => None end.

(** Element-wise operators of two operands; Max and Min take any number. *)
Definition binary_of (op : string) : option (R -> R -> R) :=
  if String.eqb op "Add" then Some Rplus else if String.eqb op "Sub" then Some Rminus
  else if String.eqb op "Mul" then Some Rmult else if String.eqb op "Div" then Some Rdiv else None.
Definition variadic_of (op : string) : option (R -> R -> R) :=
  if String.eqb op "Max" then Some Rmax else if String.eqb op "Min" then Some Rmin else None.
Definition unary_of (op : string) (a : attrs) : option unary_op :=
  if String.eqb op "Relu" then Some ORelu else if String.eqb op "Tanh" then Some OTanh
  else if String.eqb op "Sigmoid" then Some OSigmoid else if String.eqb op "Exp" then Some OExp
  else if String.eqb op "Log" then Some OLog
  else if String.eqb op "LeakyRelu" then option_map (fun v => OLeakyRelu (Some v)) (float_attr "alpha" (Some (1 / 100)%R) a)
  else None.
Definition reduction_of (op : string) : option rkind :=
  if String.eqb op "ReduceSum" then Some RSum else if String.eqb op "ReduceMean" then Some RMean
  else if String.eqb op "ReduceProd" then Some RProd else if String.eqb op "ReduceMax" then Some RMax
  else if String.eqb op "ReduceMin" then Some RMin else None.
Definition padding_of (mode : string) : option pad_mode :=
  if String.eqb mode "constant" then Some PadConstant else if String.eqb mode "edge" then Some PadEdge
  else if String.eqb mode "wrap" then Some PadWrap else if String.eqb mode "reflect" then Some PadReflect else None.

(** A bound of Clip: absent, or a scalar (a tensor without dimensions). *)
Inductive bound_is : option tensor -> option R -> Prop :=
| b_absent : bound_is None None
| b_scalar v : bound_is (Some (TFloat [] [v])) (Some v).
(** Dimensions after a reduction. *)
Fixpoint dropped_dims (p : nat) (axes : list nat) (ds : list Z) : list Z :=
  match ds with [] => [] | n :: r => (if existsb (Nat.eqb p) axes then [] else [n]) ++ dropped_dims (S p) axes r end.
Definition reduced_shape (keepdims : Z) (axes : list nat) (ds : list Z) : list Z :=
  if keepdims =? 0 then dropped_dims 0 axes ds else reduced_dims 0 axes ds.
(** numpy.dot(x, w) + b for a matrix w: along the last axis of x. *)
Definition dotted (lead : list Z) (K n : Z) (w b x y : list R) : Prop :=
  zlen y = prod (lead ++ [n]) /\
  forall q j, inside lead q -> 0 <= j < n ->
    el 0%R (lead ++ [n]) y (q ++ [j]) =
    (fold_left Rplus (tab K (fun p => (el 0 (lead ++ [K]) x (q ++ [p]) * el 0 [K; n] w [p; j])%R)) 0 + nthZ 0 b j)%R.

(** [node_holds op attributes inputs output]: the operator is defined on these
    inputs and has this output.  [None] is an omitted optional input. *)
Inductive node_holds : string -> attrs -> list (option tensor) -> tensor -> Prop :=
| h_unary op a o ds x : unary_of op a = Some o ->
    node_holds op a [Some (TFloat ds x)] (TFloat ds (map (onnx_unary o) x))
| h_clip a ds x bounds lo hi : (length bounds <= 2)%nat ->
    bound_is (nth 0 bounds None) lo -> bound_is (nth 1 bounds None) hi ->
    node_holds "Clip" a (Some (TFloat ds x) :: bounds) (TFloat ds (map (onnx_unary (OClip lo hi)) x))
| h_conv a C H W M kh kw sh sw dh dw top left bottom right OH OW w b x y :
    ints_attr "kernel_shape" (Some [kh; kw]) a = Some [kh; kw] -> ints_attr "strides" (Some [1; 1]) a = Some [sh; sw] ->
    ints_attr "dilations" (Some [1; 1]) a = Some [dh; dw] -> ints_attr "pads" (Some [0; 0; 0; 0]) a = Some [top; left; bottom; right] ->
    int_attr "group" (Some 1) a = Some 1 -> str_attr "auto_pad" (Some "NOTSET"%string) a = Some "NOTSET"%string ->
    OH = onnx_length H (top, bottom) kh sh dh -> OW = onnx_length W (left, right) kw sw dw ->
    convolved Rnum 1 M C H W kh kw sh sw dh dw top left OH OW w b x y ->
    node_holds "Conv" a [Some (TFloat [1; C; H; W] x); Some (TFloat [M; C; kh; kw] w); Some (TFloat [M] b)]
      (TFloat [1; M; OH; OW] y)
| h_pool op a C H W kh kw sh sw dh dw top left bottom right OH OW x y :
    ints_attr "kernel_shape" None a = Some [kh; kw] -> ints_attr "strides" (Some [1; 1]) a = Some [sh; sw] ->
    ints_attr "dilations" (Some [1; 1]) a = Some [dh; dw] -> ints_attr "pads" (Some [0; 0; 0; 0]) a = Some [top; left; bottom; right] ->
    str_attr "auto_pad" (Some "NOTSET"%string) a = Some "NOTSET"%string -> int_attr "ceil_mode" (Some 0) a = Some 0 ->
    OH = onnx_length H (top, bottom) kh sh dh -> OW = onnx_length W (left, right) kw sw dw ->
    (op = "MaxPool"%string /\ max_pooled Rnum C H W kh kw sh sw dh dw top left OH OW x y \/
     op = "AveragePool"%string /\ exists include, int_attr "count_include_pad" (Some 0) a = Some include /\
       average_pooled Rnum (negb (include =? 0)) C H W kh kw sh sw dh dw top left OH OW x y) ->
    node_holds op a [Some (TFloat [1; C; H; W] x)] (TFloat [1; C; OH; OW] y)
| h_batch_norm a ds C eps scale bias mean var x y :
    float_attr "epsilon" (Some (1 / 100000)%R) a = Some eps -> int_attr "training_mode" (Some 0) a = Some 0 -> coord 1 ds = C ->
    batch_normalised Rnum ds scale bias mean var eps x y ->
    node_holds "BatchNormalization" a
      [Some (TFloat ds x); Some (TFloat [C] scale); Some (TFloat [C] bias); Some (TFloat [C] mean); Some (TFloat [C] var)] (TFloat ds y)
| h_binary op a f da xa db xb ods y : binary_of op = Some f ->
    broadcast_shape [da; db] ods -> elementwise 0%R f [(da, xa); (db, xb)] ods y ->
    node_holds op a [Some (TFloat da xa); Some (TFloat db xb)] (TFloat ods y)
| h_variadic op a f ops ods y : variadic_of op = Some f -> ops <> [] ->
    broadcast_shape (map fst ops) ods -> elementwise 0%R f ops ods y ->
    node_holds op a (map (fun o => Some (TFloat (fst o) (snd o))) ops) (TFloat ods y)
| h_concat a p ops ods y : ops <> [] ->
    option_map (axis_pos ods) (int_attr "axis" None a) = Some p -> (p < length ods)%nat ->
    Forall (fun o => fst o = set_at p (coord p (fst o)) ods) ops ->
    coord p ods = fold_right Z.add 0 (map (fun o => coord p (fst o)) ops) -> concatenated 0%R p ops ods y ->
    node_holds "Concat" a (map (fun o => Some (TFloat (fst o) (snd o))) ops) (TFloat ods y)
| h_transpose a ds perm x y :
    ints_attr "perm" (Some (map Z.of_nat (rev (seq 0 (length ds))))) a = Some (map Z.of_nat perm) ->
    NoDup perm -> length perm = length ds -> Forall (fun p => (p < length ds)%nat) perm -> transposed_nd 0%R ds perm x y ->
    node_holds "Transpose" a [Some (TFloat ds x)] (TFloat (permuted perm ds) y)
| h_flatten a ds k x y : option_map (from_back (zlen ds)) (int_attr "axis" (Some 1) a) = Some (Z.of_nat k) ->
    (k <= length ds)%nat -> flattened 0%R ds k x y ->
    node_holds "Flatten" a [Some (TFloat ds x)] (TFloat [prod (firstn k ds); prod (skipn k ds)] y)
| h_gather a ds p inds x y : option_map (axis_pos ds) (int_attr "axis" (Some 0) a) = Some p -> (p < length ds)%nat ->
    Forall (fun i => - coord p ds <= i < coord p ds) inds -> gathered 0%R ds p inds x y ->
    node_holds "Gather" a [Some (TFloat ds x); Some (TInt [zlen inds] inds)] (TFloat (set_at p (zlen inds) ds) y)
| h_gather_elements a ds ods p inds x y : option_map (axis_pos ds) (int_attr "axis" (Some 0) a) = Some p -> (p < length ds)%nat ->
    length ods = length ds -> Forall (fun i => - coord p ds <= i < coord p ds) inds -> gathered_elements 0%R ds ods p inds x y ->
    node_holds "GatherElements" a [Some (TFloat ds x); Some (TInt ods inds)] (TFloat ods y)
| h_gemm a tA tB alpha beta M Nn K cdims x w c y :
    int_attr "transA" (Some 0) a = Some tA -> int_attr "transB" (Some 0) a = Some tB ->
    float_attr "alpha" (Some 1%R) a = Some alpha -> float_attr "beta" (Some 1%R) a = Some beta ->
    let sA := negb (tA =? 0) in let sB := negb (tB =? 0) in
    broadcast_shape [cdims; [M; Nn]] [M; Nn] -> gemm_value Rnum sA sB alpha beta M Nn K cdims x w c y ->
    node_holds "Gemm" a [Some (TFloat (if sA then [K; M] else [M; K]) x); Some (TFloat (if sB then [Nn; K] else [K; Nn]) w);
      Some (TFloat cdims c)] (TFloat [M; Nn] y)
| h_softmax a ds p x y : option_map (axis_pos ds) (int_attr "axis" (Some (-1)) a) = Some p -> (p < length ds)%nat ->
    softmaxed Rnum ds [p] x y ->
    node_holds "Softmax" a [Some (TFloat ds x)] (TFloat ds y)
| h_pad a mode value ds before after x y rest vt :
    option_map padding_of (str_attr "mode" (Some "constant"%string) a) = Some (Some mode) ->
    length before = length ds -> length after = length ds -> bound_is vt value ->
    rest = [] \/ rest = [None] ->
    padded 0%R mode (match value with Some v => v | None => 0%R end) ds before after x y ->
    node_holds "Pad" a (Some (TFloat ds x) :: Some (TInt [2 * zlen ds] (before ++ after)) :: vt :: rest)
      (TFloat (padded_dims ds before after) y)
| h_reduce op a k ds axes kd x y : reduction_of op = Some k -> Forall (valid_axis ds) axes ->
    int_attr "keepdims" (Some 1) a = Some kd -> (axes = [] -> int_attr "noop_with_empty_axes" (Some 0) a = Some 0) ->
    reduced Rnum k ds (reduced_axes ds axes) x y ->
    node_holds op a [Some (TFloat ds x); Some (TInt [zlen axes] axes)] (TFloat (reduced_shape kd (reduced_axes ds axes) ds) y)
| h_reduce_noop op a k ds x m : reduction_of op = Some k -> int_attr "noop_with_empty_axes" (Some 0) a = Some m -> m <> 0 ->
    node_holds op a [Some (TFloat ds x); Some (TInt [0] [])] (TFloat ds x)
| h_tile a ds reps x y : length reps = length ds -> tiled 0%R ds reps x y ->
    node_holds "Tile" a [Some (TFloat ds x); Some (TInt [zlen reps] reps)] (TFloat (map2 Z.mul reps ds) y)
(** acetone_to_onnx_layer.py:233-237 and :625-631, :738-744. *)
| h_dense a lead K n x w b y : dotted lead K n w b x y ->
    node_holds "Dense" a [Some (TFloat (lead ++ [K]) x); Some (TFloat [K; n] w); Some (TFloat [n] b)] (TFloat (lead ++ [n]) y)
| h_silu a ds x : node_holds "Silu" a [Some (TFloat ds x)] (TFloat ds (map (fun v => (v / (1 + exp (- v)))%R) x)).

(** A run of a graph on given inputs gives every name at most one tensor (the
    empty name stands for an omitted input): the inputs and the initialisers
    have theirs, and every node holds. *)
Definition runs (g : onnx_graph) (inputs : string -> list R) (env : string -> option tensor) : Prop :=
  env ""%string = None /\
  (forall nm ds, In (nm, ds) (g_inputs g) -> env nm = Some (TFloat ds (inputs nm))) /\
  (forall nm t, In (nm, t) (g_init g) -> env nm = Some t) /\
  (forall nd, In nd (g_nodes g) ->
     exists out, env (n_output nd) = Some out /\ node_holds (n_op nd) (n_attrs nd) (map env (n_inputs nd)) out).
(** Structure of a valid graph: every name is defined once, and every name read
    by a node is empty or defined before it. *)
Definition defined_names (g : onnx_graph) : list string := map fst (g_inputs g) ++ map fst (g_init g) ++ map n_output (g_nodes g).
Definition well_formed (g : onnx_graph) : Prop :=
  NoDup (defined_names g) /\
  (forall l1 nd l2, g_nodes g = l1 ++ nd :: l2 -> forall nm, In nm (n_inputs nd) ->
     nm = ""%string \/ In nm (map fst (g_inputs g)) \/ In nm (map fst (g_init g)) \/ In nm (map n_output l1)) /\
  (forall nm, In nm (map fst (g_outputs g)) -> In nm (defined_names g)).
(** The shapes announced for the outputs are those of the tensors. *)
Definition outputs_as_declared (g : onnx_graph) (env : string -> option tensor) : Prop :=
  forall nm ds, In (nm, ds) (g_outputs g) -> exists x, env nm = Some (TFloat ds x).
