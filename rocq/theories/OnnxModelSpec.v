(** * Running an ONNX model file: what the ONNX documentation says.
    Extends ExportSpec.v (the operators and attributes) with the operators and
    the attribute values that the exporter never writes: Conv without a bias or
    with auto_pad, pooling with auto_pad, GlobalAveragePool, MatMul and the
    operators that only change the shape.  Elements are real numbers.  Nothing
    here refers to the layers of the tool. *)
From Coq Require Import String.
From Coq Require Import ZArith List Lia Bool Reals.
Import ListNotations.
Open Scope Z_scope.
From Verif Require Import CMem Tensor Num RealInst Reduce OnnxSpec OnnxWindowSpec OnnxLinearSpec OnnxMiscSpec ExportSpec.

(** A model file: opset version, graph inputs, initialisers, nodes, and the
    dimensions announced for tensors (value_info and graph outputs; an unknown
    or symbolic dimension is 0). *)
Record source := mkSource {
  s_opset : Z;
  s_inputs : list (string * list Z); s_init : list (string * tensor); s_nodes : list node;
  s_value_info : list (string * list Z); s_outputs : list (string * list Z) }.

(** The auto_pad attribute. *)
Definition auto_of (a : attrs) : option auto_pad :=
  match str_attr "auto_pad" (Some "NOTSET"%string) a with
  | Some v => if String.eqb v "NOTSET" then Some NotSet else if String.eqb v "VALID" then Some AutoValid
              else if String.eqb v "SAME_UPPER" then Some AutoUpper else if String.eqb v "SAME_LOWER" then Some AutoLower else None
  | None => None
  end.
(** The attributes of a two-dimensional window: kernel, strides, dilations and
    the padding (before, after) of the rows and of the columns. *)
Definition window (a : attrs) (kernel : option (list Z)) (H W kh kw sh sw dh dw : Z) (ph pw : Z * Z) : Prop :=
  ints_attr "kernel_shape" kernel a = Some [kh; kw] /\ ints_attr "strides" (Some [1; 1]) a = Some [sh; sw] /\
  ints_attr "dilations" (Some [1; 1]) a = Some [dh; dw] /\
  exists auto top left bottom right, auto_of a = Some auto /\
    ints_attr "pads" (Some [0; 0; 0; 0]) a = Some [top; left; bottom; right] /\
    ph = onnx_pads auto top bottom H kh sh dh /\ pw = onnx_pads auto left right W kw sw dw.
(** The optional bias of Conv: zeros when omitted. *)
Inductive bias_is (M : Z) : list (option tensor) -> list R -> Prop :=
| bias_omitted rest : rest = [] \/ rest = [None] -> bias_is M rest (repeat 0%R (Z.to_nat M))
| bias_given b : bias_is M [Some (TFloat [M] b)] b.

Inductive op_holds : string -> attrs -> list (option tensor) -> tensor -> Prop :=
| o_basic op a ins out : ~ In op ["Conv"; "MaxPool"; "AveragePool"]%string -> node_holds op a ins out -> op_holds op a ins out
| o_conv a g C H W M kh kw sh sw dh dw ph pw w b rest x y :
    int_attr "group" (Some 1) a = Some g -> window a (Some [kh; kw]) H W kh kw sh sw dh dw ph pw -> bias_is M rest b ->
    convolved Rnum g M C H W kh kw sh sw dh dw (fst ph) (fst pw) (onnx_length H ph kh sh dh) (onnx_length W pw kw sw dw) w b x y ->
    op_holds "Conv" a (Some (TFloat [1; C; H; W] x) :: Some (TFloat [M; C / g; kh; kw] w) :: rest)
      (TFloat [1; M; onnx_length H ph kh sh dh; onnx_length W pw kw sw dw] y)
| o_max_pool a C H W kh kw sh sw dh dw ph pw x y :
    window a None H W kh kw sh sw dh dw ph pw -> int_attr "ceil_mode" (Some 0) a = Some 0 ->
    max_pooled Rnum C H W kh kw sh sw dh dw (fst ph) (fst pw) (onnx_length H ph kh sh dh) (onnx_length W pw kw sw dw) x y ->
    op_holds "MaxPool" a [Some (TFloat [1; C; H; W] x)] (TFloat [1; C; onnx_length H ph kh sh dh; onnx_length W pw kw sw dw] y)
| o_average_pool a C H W kh kw sh sw dh dw ph pw include x y :
    window a None H W kh kw sh sw dh dw ph pw -> int_attr "ceil_mode" (Some 0) a = Some 0 ->
    int_attr "count_include_pad" (Some 0) a = Some include ->
    average_pooled Rnum (negb (include =? 0)) C H W kh kw sh sw dh dw (fst ph) (fst pw)
      (onnx_length H ph kh sh dh) (onnx_length W pw kw sw dw) x y ->
    op_holds "AveragePool" a [Some (TFloat [1; C; H; W] x)] (TFloat [1; C; onnx_length H ph kh sh dh; onnx_length W pw kw sw dw] y)
| o_global_average_pool a C H W x y :
    zlen y = C ->
    (forall c, 0 <= c < C -> nthZ 0%R y c = (fold_left Rplus (tab (H * W) (fun k => nthZ 0%R x (c * (H * W) + k))) 0 / IZR (H * W))%R) ->
    op_holds "GlobalAveragePool" a [Some (TFloat [1; C; H; W] x)] (TFloat [1; C; 1; 1] y)
| o_matmul a da db sa sb stack M K Nn x w y :
    as_left da = sa ++ [M; K] -> as_right db = sb ++ [K; Nn] ->
    broadcast_shape [sa; sb] stack -> multiplied Rnum sa sb stack M K Nn x w y ->
    op_holds "MatMul" a [Some (TFloat da x); Some (TFloat db w)] (TFloat (product_dims da db stack M Nn) y)
(** Dropout with training_mode false. *)
| o_dropout a ds x rest : (length rest <= 1)%nat -> op_holds "Dropout" a (Some (TFloat ds x) :: rest) (TFloat ds x)
(** Reshape to the dimensions [target]: 0 keeps the dimension of the input
    (allowzero 0), -1 stands for the remaining elements. *)
| o_reshape a ds ods target x y :
    length target = length ods -> (length (filter (Z.eqb (-1)) target) <= 1)%nat ->
    (forall k, (k < length target)%nat -> coord k target = coord k ods \/ (coord k target = 0 /\ coord k ods = coord k ds) \/ coord k target = -1) ->
    prod ods = prod ds -> reshaped 0%R ds ods x y ->
    op_holds "Reshape" a [Some (TFloat ds x); Some (TInt [zlen target] target)] (TFloat ods y)
| o_unsqueeze a ds k x y :
    - (zlen ds + 1) <= k < zlen ds + 1 -> unsqueezed 0%R ds (Z.to_nat (from_back (zlen ds + 1) k)) x y ->
    op_holds "Unsqueeze" a [Some (TFloat ds x); Some (TInt [1] [k])] (TFloat (insert_at (Z.to_nat (from_back (zlen ds + 1) k)) 1 ds) y)
(** Reductions without the input that lists the axes: over all of them. *)
| o_reduce_all op a k ds kd x y : reduction_of op = Some k ->
    int_attr "keepdims" (Some 1) a = Some kd -> int_attr "noop_with_empty_axes" (Some 0) a = Some 0 ->
    reduced Rnum k ds (seq 0 (length ds)) x y ->
    op_holds op a [Some (TFloat ds x)] (TFloat (reduced_shape kd (seq 0 (length ds)) ds) y).

(** A run on one sample: every name has at most one tensor, with as many
    elements as its dimensions say. *)
Definition sized_tensor (t : tensor) : Prop :=
  match t with TFloat ds x => Forall (fun n => 0 <= n) ds /\ zlen x = prod ds | TInt ds l => zlen l = prod ds end.
Definition runs (m : source) (inputs : string -> list R) (env : string -> option tensor) : Prop :=
  env ""%string = None /\
  (forall nm ds, In (nm, ds) (s_inputs m) -> env nm = Some (TFloat (run_dims ds) (inputs nm))) /\
  (forall nm t, In (nm, t) (s_init m) -> env nm = Some t) /\
  (forall nd, In nd (s_nodes m) ->
     exists out, env (n_output nd) = Some out /\ op_holds (n_op nd) (n_attrs nd) (map env (n_inputs nd)) out) /\
  (forall nm t, env nm = Some t -> sized_tensor t).

(** A valid file with one input and one output: every name is defined once and
    before it is read. *)
Definition defined_names (m : source) : list string := map fst (s_inputs m) ++ map fst (s_init m) ++ map n_output (s_nodes m).
Record well_formed (m : source) (input output : string) : Prop := {
  wf_input : map fst (s_inputs m) = [input];
  wf_output : In output (map n_output (s_nodes m));
  wf_names : NoDup (defined_names m);
  wf_named : ~ In ""%string (defined_names m);
  wf_order : forall before nd after, s_nodes m = before ++ nd :: after -> forall nm, In nm (n_inputs nd) ->
    nm = ""%string \/ nm = input \/ In nm (map fst (s_init m)) \/ In nm (map n_output before);
  (** every tensor but the output is used *)
  wf_used : forall nm, nm = input \/ In nm (map n_output (s_nodes m)) -> nm <> output ->
    exists nd, In nd (s_nodes m) /\ In nm (n_inputs nd)
}.

(** ** Which nodes are covered by the theorems of C72: conditions on the node,
    its attributes, and the announced dimensions. *)
Definition announced (m : source) (nm : string) (ds : list Z) : Prop := In (nm, ds) (s_inputs m ++ s_value_info m ++ s_outputs m).
(** The tensors that a run computes or receives; the others are stored. *)
Definition produced (m : source) (nm : string) : Prop := In nm (map fst (s_inputs m)) \/ In nm (map n_output (s_nodes m)).
Definition stored (m : source) (nm : string) (t : tensor) : Prop := In (nm, t) (s_init m).
(** The axis is valid and is not the batch. *)
Definition sample_axis (m : source) (nm : string) (k : Z) : Prop :=
  forall ds, announced m nm ds -> valid_axis ds k /\ (zlen ds = 4 -> axis_pos ds k <> 0%nat).
Definition rank4 (m : source) (nm : string) : Prop := forall ds, announced m nm ds -> zlen ds = 4.
(** Dimensions of a stored operand: one sample of rank at most four. *)
Definition sample_dims (ds : list Z) : Prop :=
  Forall (fun n => 0 < n) ds /\ (length ds <= 4)%nat /\ (length ds = 4%nat -> coord 0 ds = 1).
Definition operand_dims (m : source) (nm : string) (ds : list Z) : Prop :=
  (exists raw, announced m nm raw /\ ds = run_dims raw) \/ (exists x, stored m nm (TFloat ds x)).
Definition operand_ok (m : source) (nm : string) : Prop :=
  produced m nm \/ exists ds x, stored m nm (TFloat ds x) /\ sample_dims ds.
(** All but the last two dimensions. *)
Definition stack_dims (ds : list Z) : list Z := removelast (removelast ds).
Definition padding_fits (mode : pad_mode) (ds ps : list Z) : Prop :=
  match mode with
  | PadConstant | PadEdge => True
  | PadWrap => Forall2 (fun n p => p < n) ds (firstn 4 ps)
  | PadReflect => Forall (fun n => 2 <= n) (tl ds)
  end.
(** The opset that made the axes an input. *)
Definition reductions_since (op : string) : Z := if String.eqb op "ReduceSum" then 13 else 18.
Inductive covered (m : source) : node -> Prop :=
| v_unary op a i o : In op ["Relu"; "Tanh"; "Sigmoid"; "Exp"; "Log"]%string -> produced m i -> covered m (mkONode op a [i] o)
| v_leaky a i o : (forall v, float_attr "alpha" (Some (1 / 100)%R) a = Some v -> (0 <= v)%R) -> produced m i ->
    covered m (mkONode "LeakyRelu" a [i] o)
| v_softmax a i o k : 13 <= s_opset m -> produced m i -> int_attr "axis" (Some (-1)) a = Some k -> sample_axis m i k ->
    (* a vector up to dimensions of one is normalised as a whole *)
    (forall ds, announced m i ds -> In (prod (run_dims ds)) (1 :: run_dims ds) -> coord (axis_pos ds k) (run_dims ds) = prod (run_dims ds)) ->
    covered m (mkONode "Softmax" a [i] o)
| v_conv a kh kw s d auto i wn rest o : attr_of "kernel_shape" a = Some (AInts [kh; kw]) -> int_attr "group" (Some 1) a = Some 1 ->
    ints_attr "strides" (Some [1; 1]) a = Some [s; s] -> ints_attr "dilations" (Some [1; 1]) a = Some [d; d] ->
    auto_of a = Some auto -> auto = NotSet \/ auto = AutoValid \/ d = 1 -> 1 <= kh -> 1 <= kw -> 0 < s ->
    produced m i -> (length rest <= 1)%nat -> (forall nm, In nm (wn :: rest) -> exists t, stored m nm t) ->
    covered m (mkONode "Conv" a (i :: wn :: rest) o)
| v_pool op a k s auto t l b r i o : op = "MaxPool"%string \/ op = "AveragePool"%string /\ int_attr "count_include_pad" (Some 0) a = Some 0 ->
    attr_of "kernel_shape" a = Some (AInts [k; k]) ->
    ints_attr "strides" (Some [1; 1]) a = Some [s; s] -> ints_attr "dilations" (Some [1; 1]) a = Some [1; 1] ->
    auto_of a = Some auto -> ints_attr "pads" (Some [0; 0; 0; 0]) a = Some [t; l; b; r] -> 0 < k -> 0 < s ->
    (auto = NotSet -> 0 <= t < k /\ 0 <= l < k /\ 0 <= b < k /\ 0 <= r < k) ->
    (forall ds, announced m i ds -> fst (onnx_pads auto t b (coord 2 (run_dims ds)) k s 1) = fst (onnx_pads auto l r (coord 3 (run_dims ds)) k s 1)) ->
    produced m i -> covered m (mkONode op a [i] o)
| v_global_average_pool a i o : produced m i -> (forall ds, announced m i ds -> coord 2 (run_dims ds) = coord 3 (run_dims ds)) ->
    covered m (mkONode "GlobalAveragePool" a [i] o)
| v_batch_norm a i ps o : produced m i -> rank4 m o -> (forall nm, In nm ps -> exists t, stored m nm t) ->
    covered m (mkONode "BatchNormalization" a (i :: ps) o)
| v_operands op a is o : In op ["Sub"; "Mul"; "Div"; "Max"; "Min"]%string -> Forall (produced m) is -> covered m (mkONode op a is o)
| v_add a is o : Forall (operand_ok m) is -> covered m (mkONode "Add" a is o)
| v_concat a k is o : Forall (produced m) is -> attr_of "axis" a = Some (AInt k) -> sample_axis m o k -> covered m (mkONode "Concat" a is o)
| v_transpose a p1 p2 p3 i o : produced m i -> rank4 m i -> attr_of "perm" a = Some (AInts [0; p1; p2; p3]) ->
    covered m (mkONode "Transpose" a [i] o)
| v_gather op a k i inn o : op = "Gather"%string \/ op = "GatherElements"%string -> attr_of "axis" a = Some (AInt k) -> sample_axis m i k ->
    produced m i -> (exists t, stored m inn t) ->
    (* GatherElements: the indices differ from the input along the axis only *)
    (op = "GatherElements"%string -> forall ds ids q, announced m i ds -> stored m inn (TInt ids q) ->
       ids = set_at (axis_pos ds k) (coord (axis_pos ds k) ids) (run_dims ds)) ->
    covered m (mkONode op a [i; inn] o)
| v_gemm a i wn bn b n o : (float_attr "alpha" (Some 1%R) a = Some 1%R \/ float_attr "beta" (Some 1%R) a <> Some 1%R) ->
    produced m i -> (exists t, stored m wn t) -> stored m bn (TFloat [n] b) -> (forall ds, announced m o ds -> coord 1 (run_dims ds) = n) ->
    covered m (mkONode "Gemm" a [i; wn; bn] o)
| v_matmul a i j o : operand_ok m i -> operand_ok m j ->
    (forall da db, operand_dims m i da -> operand_dims m j db -> da <> [] /\ db <> [] /\ prod (stack_dims (as_left da)) = prod (stack_dims (as_right db))) ->
    covered m (mkONode "MatMul" a [i; j] o)
| v_pad a mode i pn ds ps vn v o : option_map padding_of (match attr_of "mode" a with Some (AStr s) => Some s | _ => None end) = Some (Some mode) ->
    produced m i -> rank4 m i -> stored m pn (TInt ds ps) -> stored m vn (TFloat [] [v]) ->
    Forall (fun p => 0 <= p) ps -> coord 0 ps = 0 -> coord 4 ps = 0 -> (forall ds, announced m i ds -> padding_fits mode (run_dims ds) ps) ->
    covered m (mkONode "Pad" a [i; pn; vn] o)
(** the importer takes the name of the operand apart into its characters *)
| v_tile a i rn ds reps o : String.length i = 1%nat -> produced m i -> stored m rn (TInt ds reps) ->
    Forall (fun r => 0 < r) reps -> (zlen reps = 4 -> coord 0 reps = 1) -> covered m (mkONode "Tile" a [i; rn] o)
| v_reduce op a k i rest axes n o : reduction_of op = Some k -> reductions_since op <= s_opset m -> String.length i = 1%nat -> produced m i ->
    (rest = [] /\ axes = [] \/ exists an ads, rest = [an] /\ stored m an (TInt ads axes)) ->
    int_attr "noop_with_empty_axes" (Some 0) a = Some n -> (axes = [] -> n = 0) ->
    (* ReduceMax, ReduceMin: one axis or all the last three *)
    (forall ds, announced m i ds -> Forall (valid_axis ds) axes /\ (zlen ds = 4 -> ~ In 0%nat (map (axis_pos ds) axes)) /\
       (axes <> [] -> k = RMax \/ k = RMin -> (exists p, forall q, In q axes -> axis_pos ds q = p) \/
          (3 <= zlen ds /\ forall q, (length ds - 3 <= q < length ds)%nat -> In q (map (axis_pos ds) axes)))) ->
    covered m (mkONode op a (i :: rest) o)
(** nodes that only change the shape *)
| v_reshape op a i rest o : In op ["Dropout"; "Unsqueeze"; "Reshape"; "Flatten"]%string -> produced m i ->
    (forall nm, In nm rest -> nm = ""%string \/ exists t, stored m nm t) -> covered m (mkONode op a (i :: rest) o).

(** The file announces the dimensions of every computed tensor, they are those
    of the run, and the tensors have one to four dimensions. *)
Record annotated (m : source) (env : string -> option tensor) : Prop := {
  an_all : forall nm, produced m nm -> exists ds, announced m nm ds;
  an_sample : forall nm ds, produced m nm -> announced m nm ds -> one_sample ds;
  an_true : forall nm ds, announced m nm ds -> exists x, env nm = Some (TFloat (run_dims ds) x)
}.
(** Every node is covered and reads at least one tensor that is not stored. *)
Definition all_covered (m : source) : Prop :=
  forall nd, In nd (s_nodes m) -> covered m nd /\ exists nm, In nm (n_inputs nd) /\ produced m nm.
(** The operand of a node that only changes the shape is read by no other node. *)
Definition exclusive (m : source) : Prop :=
  forall before nd after i rest, s_nodes m = before ++ nd :: after -> In (n_op nd) ["Dropout"; "Unsqueeze"; "Reshape"; "Flatten"]%string ->
    n_inputs nd = i :: rest -> forall other, In other (before ++ after) -> ~ In i (n_inputs other).
(** No node reads a tensor twice. *)
Definition reads_once (m : source) : Prop := forall nd, In nd (s_nodes m) -> NoDup (n_inputs nd).
