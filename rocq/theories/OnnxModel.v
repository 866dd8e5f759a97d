(** * Importing an ONNX model file: the loop over the nodes with the layers.
    src/acetone_nnet/importers/ONNX_importer/parser_ONNX.py:64-155 and
    create_layer.py (line numbers below are in create_layer.py unless another
    file is named).  The links between the layers are those of Import.v, the
    creation functions those of OnnxOps.v, OnnxLinear.v, OnnxWindow.v and
    OnnxMisc.v; layers are described by LayerKinds.v.  [None] is an exception,
    or an operator that is not modelled here: Resize (OnnxResize.v), Clip (ONNX's scalar
    bounds are refused, C64), Mean (refused, C61), LSTM, Constant, LRN and Shape.
    The model is the one after shape inference (parser_ONNX.py:76-77). *)
From Coq Require Import String.
From Coq Require Import ZArith List Lia Bool Reals.
Import ListNotations.
Open Scope list_scope.
Open Scope Z_scope.
From Verif Require Import CMem Tensor Num RealInst Graph Import LayerKinds OnnxOps OnnxLinear OnnxWindow OnnxMisc.
From Verif Require Activation Broadcast Pooling Pad.
From Verif Require Import OnnxSpec OnnxWindowSpec OnnxMiscSpec ExportSpec OnnxModelSpec.

(** The last description of a name in a list. *)
Fixpoint find_last {A} (l : list (string * A)) (nm : string) : option A :=
  match l with
  | [] => None
  | (k, v) :: r => match find_last r nm with Some u => Some u | None => if String.eqb k nm then Some v else None end
  end.
(** get_shape 147-164: value_info, then graph.input, then graph.output; the
    last one found counts, [] when there is none. *)
Definition raw_shape (m : source) (nm : string) : list Z :=
  match find_last (s_outputs m) nm with
  | Some ds => ds
  | None => match find_last (s_inputs m) nm with
            | Some ds => ds
            | None => match find_last (s_value_info m) nm with Some ds => ds | None => [] end
            end
  end.
(** look_for_initializer 116-127: the first one of that name. *)
Fixpoint find_first {A} (l : list (string * A)) (nm : string) : option A :=
  match l with [] => None | (k, v) :: r => if String.eqb k nm then Some v else find_first r nm end.
Definition initialiser (m : source) (nm : string) : option tensor :=
  if String.eqb nm "" then None else find_first (s_init m) nm.
(** onnx.numpy_helper.to_array; of another element type: not modelled. *)
Definition floats (m : source) (nm : string) : option (list Z * list R) :=
  match initialiser m nm with Some (TFloat ds x) => Some (ds, x) | _ => None end.
Definition integers (m : source) (nm : string) : option (list Z * list Z) :=
  match initialiser m nm with Some (TInt ds l) => Some (ds, l) | _ => None end.
Definition is_initialiser (m : source) (nm : string) : bool := match initialiser m nm with Some _ => true | None => false end.

(** extract_attributes 131-136: an attribute, if present; of another type than
    expected: not modelled. *)
Definition opt_int (nm : string) (a : attrs) : option (option Z) :=
  match attr_of nm a with None => Some None | Some (AInt n) => Some (Some n) | Some _ => None end.
Definition opt_ints (nm : string) (a : attrs) : option (option (list Z)) :=
  match attr_of nm a with None => Some None | Some (AInts l) => Some (Some l) | Some _ => None end.
Definition opt_float (nm : string) (a : attrs) : option (option R) :=
  match attr_of nm a with None => Some None | Some (AFloat v) => Some (Some v) | Some _ => None end.
Definition opt_str (nm : string) (a : attrs) : option (option string) :=
  match attr_of nm a with None => Some None | Some (AStr v) => Some (Some v) | Some _ => None end.
(** 286-297 and the same lines of the pooling functions; compute_padding
    (ir/layer.py:116-164) raises on other strings. *)
Definition read_auto (a : attrs) : option auto_pad :=
  v <- opt_str "auto_pad" a ;;
  match v with
  | None => Some NotSet
  | Some v => if String.eqb v "NOTSET" then Some NotSet else if String.eqb v "VALID" then Some AutoValid
              else if String.eqb v "SAME_UPPER" then Some AutoUpper else if String.eqb v "SAME_LOWER" then Some AutoLower else None
  end.
Definition read_window (g : option Z) (a : attrs) : option window_node :=
  k <- opt_ints "kernel_shape" a ;; s <- opt_ints "strides" a ;; d <- opt_ints "dilations" a ;;
  auto <- read_auto a ;; p <- opt_ints "pads" a ;;
  Some (mkNode k s d g auto p).
(** create_pad_obj 95-112. *)
Definition read_mode (a : attrs) : option (option OnnxMiscSpec.pad_mode) :=
  v <- opt_str "mode" a ;;
  match v with None => Some None | Some v => match padding_of v with Some md => Some (Some md) | None => None end end.
(** 1407-1436. *)
Definition read_activation (op : string) (a : attrs) : option (activation_node R) :=
  if String.eqb op "Relu" then Some NRelu else if String.eqb op "Tanh" then Some NTanh
  else if String.eqb op "Sigmoid" then Some NSigmoid else if String.eqb op "Exp" then Some NExp
  else if String.eqb op "Log" then Some NLog
  else if String.eqb op "LeakyRelu" then alpha <- opt_float "alpha" a ;; Some (NLeakyRelu alpha)
  else None.
(** The class of a layer_type entry (1460-1497) among the element-wise ones. *)
Definition broadcast_kind (op : string) : option Broadcast.bkind :=
  if String.eqb op "Add" then Some Broadcast.BAdd else if String.eqb op "Sub" then Some Broadcast.BSub
  else if String.eqb op "Mul" then Some Broadcast.BMul else if String.eqb op "Div" then Some Broadcast.BDiv
  else if String.eqb op "Max" then Some Broadcast.BMax else if String.eqb op "Min" then Some Broadcast.BMin else None.
Definition triple (s : Z * Z * Z) : Broadcast.shape := let '(c, h, w) := s in Broadcast.mkShape c h w.

Definition plain (k : kind Rnum) : layer Rnum := mkLayer Rnum k (Activation.LinearAct : Activation.activation Rnum).
Definition nonzero (o : option Z) : bool := match o with Some n => negb (n =? 0) | None => false end.
(** The pad mode of the layer classes. *)
Definition layer_mode (md : OnnxMiscSpec.pad_mode) (v : R) : LayerKinds.pad_mode Rnum :=
  match md with
  | OnnxMiscSpec.PadConstant => LayerKinds.PadConstant Rnum v
  | OnnxMiscSpec.PadEdge => LayerKinds.PadEdge Rnum | OnnxMiscSpec.PadWrap => LayerKinds.PadWrap Rnum
  | OnnxMiscSpec.PadReflect => LayerKinds.PadReflect Rnum
  end.
(** The shape that _collect_node_inputs (1152-1166) gives an operand of MatMul. *)
Definition operand_of (m : source) (nm : string) : operand_shape :=
  match initialiser m nm with
  | Some (TFloat ds _) | Some (TInt ds _) => Initialiser ds
  | None => Computed (raw_shape m nm)
  end.
(** The shape of an operand of Add, as raw dimensions for create_elementwise:
    1184-1189 completes the shape with leading ones like get_shape, but also
    when it is empty.  (The dimensions of an initialiser are not resolved;
    here they are, which only changes zero dimensions.) *)
Definition add_shape (m : source) (nm : string) : list Z :=
  match (match initialiser m nm with Some (TFloat ds _) | Some (TInt ds _) => ds | None => raw_shape m nm end) with
  | [] => [1]
  | ds => ds
  end.

(** One node of layer_type (1460-1497): the recorded inputs (dict_input[idx])
    and the layer.  Conv2D(conv_algorithm="specs") builds the layer by
    compute_padding; [impl] is the implementation selected later
    (neural_network.py:325-355). *)
Definition import_layer (impl : conv_impl) (m : source) (nd : node) : option (list string * layer Rnum) :=
  let op := n_op nd in let a := n_attrs nd in let out := raw_shape m (n_output nd) in
  match n_inputs nd with
  | [] => None
  | i0 :: rest =>
    let raw := raw_shape m i0 in
    if String.eqb op "Softmax" then
      (* create_softmax 232-265: all the inputs *)
      axis <- opt_int "axis" a ;; L <- create_softmax (s_opset m) raw out axis ;;
      Some (n_inputs nd, plain (KSoftmax Rnum (s_C L) (s_H L) (s_W L) (s_axis L)))
    else if String.eqb op "Conv" then
      (* create_conv 267-325 *)
      g <- opt_int "group" a ;; w <- read_window g a ;;
      match rest with
      | [] => None
      | wn :: more =>
          W <- floats m wn ;;
          bias <- match more with
                  | [] => Some None
                  | [bn] => B <- floats m bn ;; Some (Some (snd B))
                  | _ => Some None
                  end ;;
          L <- create_conv 0%R w raw out (fst W) bias ;;
          Some ([i0], plain (KConv Rnum impl (fst L) (snd W) (snd L)))
      end
    else if String.eqb op "Concat" then
      (* create_concat 327-357: all the inputs *)
      axis <- opt_int "axis" a ;; k <- axis ;;
      L <- create_concat (map (raw_shape m) (n_inputs nd)) out k ;;
      Some (n_inputs nd, plain (KConcat Rnum (cc_axis L) (cc_OC L) (cc_OH L) (cc_OW L) (cc_shapes L)))
    else if String.eqb op "Pad" then
      (* create_pad 440-480; axes as a fourth input: not modelled here *)
      md <- read_mode a ;;
      match rest with
      | [pn; vn] =>
          P <- integers m pn ;; v <- floats m vn ;;
          match snd v with
          | [c] => L <- create_pad md raw out (Given (snd P)) (Given c) Missing ;;
                   Some ([i0], plain (KPad Rnum (layer_mode (pl_mode L) (pl_value L)) (pl_C L) (pl_H L) (pl_W L) (pl_pads L)))
          | _ => None
          end
      | _ => None
      end
    else if String.eqb op "Gather" then
      (* create_gather 483-520.  KGather describes layers whose announced output
         has the dimensions of the gathered tensor; others are not modelled. *)
      axis <- opt_int "axis" a ;;
      match rest with
      | inn :: _ =>
          I <- integers m inn ;; L <- create_gather raw out axis (snd I) ;;
          let k := g_axis L in let n := zlen (g_inds L) in
          if (g_OC L =? (if k =? 1 then n else g_C L)) && (g_OH L =? (if k =? 2 then n else g_H L)) && (g_OW L =? (if k =? 3 then n else g_W L))
          then Some ([i0], plain (KGather Rnum k (g_C L) (g_H L) (g_W L) (g_inds L))) else None
      | [] => None
      end
    else if String.eqb op "GatherElements" then
      (* create_gather_elements 522-560 *)
      axis <- opt_int "axis" a ;;
      match rest with
      | inn :: _ =>
          I <- integers m inn ;; L <- create_gather_elements raw out axis (fst I) (snd I) ;;
          Some ([i0], plain (KGatherElements Rnum (g_axis L) (g_C L) (g_H L) (g_W L) (g_OC L) (g_OH L) (g_OW L) (g_inds L)))
      | [] => None
      end
    else if String.eqb op "Gemm" then
      (* create_gemm 563-603 *)
      tA <- opt_int "transA" a ;; tB <- opt_int "transB" a ;; alpha <- opt_float "alpha" a ;; beta <- opt_float "beta" a ;;
      match rest with
      | wn :: more =>
          W <- floats m wn ;;
          B <- match more with [bn] => floats m bn | _ => None end ;;
          L <- create_gemm Rnum raw out (nonzero tA) (nonzero tB) alpha beta (fst W) (Some (fst B)) ;;
          Some ([i0], plain (KGemm Rnum (gl_tA L) (gl_tB L) (gl_alpha L) (gl_beta L) (gl_m L) (gl_n L) (gl_k L) (snd W) (snd B)))
      | [] => None
      end
    else if String.eqb op "MatMul" then
      (* create_matmul 650-680: all the inputs *)
      match rest with
      | [i1] =>
          L <- create_matmul (operand_of m i0) (operand_of m i1) out ;;
          Some (n_inputs nd, plain (KMatMul Rnum (ml_C L) (ml_OH L) (ml_OW L) (ml_K L)))
      | _ => None
      end
    else if String.eqb op "BatchNormalization" then
      (* create_batch_norm 683-716 *)
      eps <- opt_float "epsilon" a ;;
      match rest with
      | [sn; bn; mn; vn] =>
          sc <- floats m sn ;; bi <- floats m bn ;; me <- floats m mn ;; va <- floats m vn ;;
          L <- create_batch_norm out (zlen (snd sc)) (zlen (snd bi)) (zlen (snd me)) (zlen (snd va)) ;;
          o3 <- dims3 (get_shape out) ;;
          let '(C, H, W) := o3 in
          Some ([i0], plain (KBatchNorm Rnum C H W (snd sc) (snd me) (snd va) (snd bi) (match eps with Some e => e | None => (1 / 100000)%R end)))
      | _ => None
      end
    else if String.eqb op "Transpose" then
      (* create_transpose 719-740: all the inputs *)
      perm <- opt_ints "perm" a ;; p <- perm ;; L <- create_transpose raw out p ;;
      Some (n_inputs nd, plain (KTranspose Rnum (tr_C L) (tr_H L) (tr_W L) (tr_p1 L) (tr_p2 L) (tr_p3 L)))
    else if String.eqb op "MaxPool" then
      (* create_max_pool 1047-1083: all the inputs *)
      w <- read_window None a ;; L <- create_pool w raw out ;; Some (n_inputs nd, plain (KMaxPool Rnum L))
    else if String.eqb op "AveragePool" then
      (* create_average_pool 1086-1122 *)
      w <- read_window None a ;; L <- create_pool w raw out ;; Some ([i0], plain (KAvgPool Rnum L))
    else if String.eqb op "GlobalAveragePool" then
      (* create_global_average_pool 1125-1148 *)
      L <- create_global_average_pool raw out ;; Some (n_inputs nd, plain (KAvgPool Rnum L))
    else if String.eqb op "Tile" then
      (* create_tile 743-770; dict_input[idx] is the name itself, a string, and
         parser_ONNX.py:133 goes over its characters *)
      match rest with
      | rn :: _ =>
          I <- integers m rn ;; L <- create_tile raw out (snd I) ;;
          Some (chars i0, plain (KTile Rnum (t_C L) (t_H L) (t_W L) (t_rc L) (t_rh L) (t_rw L)))
      | [] => None
      end
    else match reduction_of op with
    | Some k =>
        (* create_reduce_sum 773-825, create_reduce_max 828-879, create_reduce_min
           882-933, create_reduce_mean 936-987, create_reduce_prod 990-1044; the
           characters of the name as for Tile *)
        noop <- opt_int "noop_with_empty_axes" a ;;
        axes <- match rest with [an] => I <- integers m an ;; Some (Some (snd I)) | _ => Some None end ;;
        L <- create_reduce (if String.eqb op "ReduceSum" then 13 else 18) (s_opset m) raw out axes (nonzero noop) ;;
        Some (chars i0, plain (KReduce Rnum k (r_C L) (r_H L) (r_W L) (r_axes L) (r_noop L)))
    | None =>
    match broadcast_kind op with
    | Some k =>
        (* create_add 1169-1196, create_max 1330-1353, create_min 1356-1379: all
           the inputs; create_div 1199-1241, create_mul 1244-1284, create_sub
           1287-1327 without initialisers (with them: Broadcast.import_constant,
           not modelled here) *)
        let shapes := match k with Broadcast.BAdd => map (add_shape m) (n_inputs nd) | _ => map (raw_shape m) (n_inputs nd) end in
        let folded := match k with
                      | Broadcast.BSub | Broadcast.BMul | Broadcast.BDiv => existsb (is_initialiser m) (n_inputs nd)
                      | _ => false
                      end in
        if folded then None
        else L <- create_elementwise false shapes out ;;
             Some (n_inputs nd, plain (KBroadcast Rnum k (map triple (ew_shapes L)) None (triple (ew_out L))))
    | None =>
        (* create_activation_layer 1439-1457 *)
        n <- read_activation op a ;; L <- create_activation Rnum (1 / 100)%R n out ;;
        match snd L with
        | WithCode f => Some ([i0], mkLayer Rnum (KActivation Rnum (fst L)) f)
        | NoCode => None
        end
    end
    end
  end.

(** unused_layers 1525-1533 with bypass 1503-1509; Constant, LRN and Shape are
    not modelled here. *)
Definition bypassed (op : string) : bool := existsb (String.eqb op) ["Dropout"; "Unsqueeze"; "Reshape"; "Flatten"]%string.

(** parser_ONNX.py:106-126: what is done for one node. *)
Definition import_node (impl : conv_impl) (m : source) (nd : node) : option (onnx_node * option (layer Rnum)) :=
  if bypassed (n_op nd)
  then match n_inputs nd with i :: _ => Some (OBypass i (n_output nd), None) | [] => None end
  else L <- import_layer impl m nd ;; Some (OLayer (fst L) (n_output nd), Some (snd L)).

(** create_input_layer 193-212 and input/Input.py:40-75 (InputDefault.py:46-63
    distinguishes four-dimensional shapes; with data_format channels_first the
    code copies size = find_size(shape) elements, which skips unknown
    dimensions).  A first dimension of two or more is not modelled. *)
Definition input_layer (raw : list Z) : layer Rnum :=
  plain (match run_dims raw with [_; C; H; W] => KInput4 Rnum C H W | _ => KInput Rnum (find_size raw) end).
(** create_initializer_layer 214-230. *)
Definition constant_layer (m : source) (nm : string) : layer Rnum :=
  plain (KConstant Rnum (match floats m nm with Some (_, x) => x | None => [] end)).
Fixpoint made_layers (l : list (onnx_node * option (layer Rnum))) : list (layer Rnum) :=
  match l with [] => [] | (_, Some L) :: r => L :: made_layers r | (_, None) :: r => made_layers r end.
(** The layer number [k]: inputs, then nodes, then constants. *)
Definition layer_at (m : source) (made : list (layer Rnum)) (constants : list (nat * string)) (k : nat) : layer Rnum :=
  match find (fun e => Nat.eqb k (fst e)) constants with
  | Some e => constant_layer m (snd e)
  | None => nth k (map (fun i => input_layer (snd i)) (s_inputs m) ++ made) (plain (KInput Rnum 0))
  end.
(** load_onnx, parser_ONNX.py:64-155: the model and its schedule. *)
Definition load_model (impl : conv_impl) (m : source) : option (model Rnum * schedule) :=
  nds <- all_some (map (import_node impl m) (s_nodes m)) ;;
  gc <- load_onnx (mkOnnx (map fst (s_inputs m)) (map fst (s_init m)) (map fst nds)) ;;
  s <- tri_topo (fst gc) ;;
  Some (mkModel Rnum (fst gc) (layer_at m (made_layers nds) (snd gc)) false, s).
