(** * exporters/ONNX_exporter: from the layers to an ONNX graph.

    exporter_onnx.py and acetone_to_onnx_layer.py.  Elements are real numbers
    (rounding to the data type is not modelled); node names and element types
    other than floating point / INT64 are not modelled.  [None] is a raised
    exception. *)
From Coq Require Import String.
From Coq Require Import ZArith List Lia Bool Reals Decimal DecimalString DecimalNat.
Import ListNotations.
Open Scope Z_scope.
From Verif Require Import CMem Num RealInst Activation Conv Pooling Pad Reduce Resize Graph LayerKinds ExportSpec.
From Verif Require Broadcast.
Open Scope string_scope.
Open Scope list_scope.
Open Scope Z_scope.

(** Attributes of a layer that the exporter reads and that have no effect on
    the generated code (so they are not part of LayerKinds.kind):
    InputLayer.input_shape (None replaced by 1), the entries of perm, repeats
    and pads for the batch axis, keepdims, axes of Pad and Resize layers,
    constant_value, the other attributes of a Resize layer and its scale. *)
Record extra := mkExtra {
  x_shape : list Z; x_perm0 : Z; x_repeat0 : Z; x_pad_before0 : Z; x_pad_after0 : Z; x_keepdims : Z;
  x_axes : list Z; x_constant : option R; x_resize : attrs; x_scale : list R }.

(** f"{idx}" for a natural number. *)
Definition str_of_nat (n : nat) : string := NilEmpty.string_of_uint (Nat.to_uint n).

(** ActivationFunctions.name (activation_functions.py:84-247) and
    ActivationLayer.name, its capitalize() (activation_layer.py:44). *)
Definition activation_name (a : activation Rnum) : string :=
  match a with
  | Sigmoid => "sigmoid" | Silu => "silu" | ReLu => "relu" | LeakyReLu _ => "leakyrelu" | TanH => "hyperb_tan"
  | LinearAct => "linear" | Exponential => "Exponential" | Logarithm => "Logarithm" | Clip _ _ => "Clip" end.
Definition activation_layer_name (a : activation Rnum) : string :=
  match a with
  | Sigmoid => "Sigmoid" | Silu => "Silu" | ReLu => "Relu" | LeakyReLu _ => "Leakyrelu" | TanH => "Hyperb_tan"
  | LinearAct => "Linear" | Exponential => "Exponential" | Logarithm => "Logarithm" | Clip _ _ => "Clip" end.
Definition broadcast_name (k : Broadcast.bkind) : string :=
  match k with
  | Broadcast.BAdd => "Add" | Broadcast.BSub => "Subtract" | Broadcast.BMul => "Multiply" | Broadcast.BDiv => "Divide"
  | Broadcast.BMax => "Maximum" | Broadcast.BMin => "Minimum" | Broadcast.BAvg => "Average" end.
Definition reduce_name (k : rkind) : string :=
  match k with RSum => "ReduceSum" | RMean => "ReduceMean" | RProd => "ReduceProd" | RMax => "ReduceMax" | RMin => "ReduceMin" end.
(** Layer.name, set by the constructor of each class. *)
Definition layer_name (l : layer Rnum) : string :=
  match lkind Rnum l with
  | KInput4 _ _ _ _ | KInput _ _ => "Input_layer"
  | KConstant _ _ => "Constant"
  | KActivation _ _ => activation_layer_name (lact Rnum l)
  | KDense _ _ _ _ _ => "Dense"
  | KMatMul _ _ _ _ _ => "MatMul"
  | KGemm _ _ _ _ _ _ _ _ _ _ => "Gemm"
  | KBatchNorm _ _ _ _ _ _ _ _ _ => "BatchNormalization"
  | KTranspose _ _ _ _ _ _ _ => "Transpose"
  | KConcat _ _ _ _ _ _ => "Concatenate"
  | KGather _ _ _ _ _ _ => "Gather"
  | KGatherElements _ _ _ _ _ _ _ _ _ => "GatherElements"
  | KTile _ _ _ _ _ _ _ => "Tile"
  | KFlatten _ _ _ _ _ => "Flatten"
  | KConv _ _ _ _ _ => "Conv2D"
  | KMaxPool _ _ => "MaxPooling2D"
  | KAvgPool _ _ => "AveragePooling2D"
  | KPad _ (PadConstant _ _) _ _ _ _ => "ConstantPad"
  | KPad _ (PadEdge _) _ _ _ _ => "EdgePad"
  | KPad _ (PadReflect _) _ _ _ _ => "ReflectPad"
  | KPad _ (PadWrap _) _ _ _ _ => "WrapPad"
  | KBroadcast _ k _ _ _ => broadcast_name k
  | KReduce _ k _ _ _ _ _ => reduce_name k
  | KSoftmax _ _ _ _ _ => "Softmax"
  | KNearest _ _ _ => "ResizeNearest"
  | KLinear _ _ => "ResizeLinear"
  | KCubic _ _ _ => "ResizeCubic"
  end.

Section Export.
  Context (md : model Rnum) (ex : nat -> extra).
  Let layer_of := md_layer Rnum md.
  Let prevs := previous_layer (md_graph Rnum md).

  (** f"{layer.name}_{layer.idx}" *)
  Definition base (n : nat) : string := (layer_name (layer_of n) ++ "_" ++ str_of_nat n)%string.
  Definition named (n : nat) (suffix : string) : string := (base n ++ suffix)%string.

  (** acetone_to_onnx_layer.py:88-93, exporter_onnx.py:62-66: a fused activation
      other than Linear, of a layer that is not an ActivationLayer. *)
  Definition fused (n : nat) : bool :=
    match lkind Rnum (layer_of n), lact Rnum (layer_of n) with
    | KActivation _ _, _ => false
    | _, LinearAct => false
    | _, _ => true end.
  (** generate_input_output_name, acetone_to_onnx_layer.py:81-98 *)
  Definition input_names (n : nat) : list string := map base (prevs n).
  Definition output_name (n : nat) : string := if fused n then named n "_pre_activation" else base n.

  (** np.squeeze of a (1,C,H,W) or (C,H,W) array. *)
  Definition squeezed (s : Broadcast.shape) : list Z := filter (fun d => negb (d =? 1)) [Broadcast.sC s; Broadcast.sH s; Broadcast.sW s].
  (** name[:3], acetone_to_onnx_layer.py:147 *)
  Definition three (s : string) : string := substring 0 3 s.

  Definition export_result := (list node * list (string * tensor))%type.
  (** The nodes and initialisers of one layer, without its fused activation:
      list_exporters (acetone_to_onnx_layer.py:647-689) and the exporters.  A class without
      exporter gives nothing (exporter_onnx.py:55-56). *)
  Definition export_layer (n : nat) : option export_result :=
    let one op a ins (inits : list (string * tensor)) := Some ([mkONode op a ins (output_name n)], inits) in
    let ins := input_names n in
    match lkind Rnum (layer_of n) with
    | KInput4 _ _ _ _ | KInput _ _ | KConstant _ _ => Some ([], [])
    (* export_activation :597-644; Linear has no exporter *)
    | KActivation _ _ =>
        match lact Rnum (layer_of n) with
        | ReLu => one "Relu" [] ins [] | TanH => one "Tanh" [] ins [] | Sigmoid => one "Sigmoid" [] ins []
        | Exponential => one "Exp" [] ins [] | Logarithm => one "Log" [] ins [] | LeakyReLu _ => one "LeakyRelu" [] ins []
        | Clip _ _ => one "Clip" [] ins [] | Silu => one "Silu" [] ins [] | LinearAct => Some ([], []) end
    (* export_dense :228-259 *)
    | KDense _ prev m w b =>
        one "Dense" [] (ins ++ [named n "_weight"; named n "_bias"])
          [(named n "_weight", TFloat [prev; m] w); (named n "_bias", TFloat [m] b)]
    (* export_matmul :371-406 reads matmul_layer.side, which the class does not have *)
    | KMatMul _ _ _ _ _ => None
    (* export_gemm :333-368 *)
    | KGemm _ tA tB alpha beta m nn k w b =>
        one "Gemm"
          [("alpha", match alpha with None => AInt 1 | Some v => AFloat v end);
           ("beta", match beta with None => AInt 1 | Some v => AFloat v end);
           ("transA", AInt (Z.b2z tA)); ("transB", AInt (Z.b2z tB))]
          (ins ++ [named n "_weight"; named n "_bias"])
          [(named n "_weight", TFloat (if tB then [nn; k] else [k; nn]) w); (named n "_bias", TFloat [nn] b)]
    (* export_batch_normalization :103-139 *)
    | KBatchNorm _ C H W scale mean var bias eps =>
        one "BatchNormalization" [("epsilon", AFloat eps)]
          (ins ++ [named n "_scale"; named n "_biases"; named n "_mean"; named n "_var"])
          [(named n "_scale", TFloat [C] scale); (named n "_biases", TFloat [C] bias);
           (named n "_mean", TFloat [C] mean); (named n "_var", TFloat [C] var)]
    (* export_transpose :579-595 *)
    | KTranspose _ _ _ _ p1 p2 p3 => one "Transpose" [("perm", AInts [x_perm0 (ex n); p1; p2; p3])] ins []
    (* export_concatenate :176-193 *)
    | KConcat _ axis _ _ _ _ => one "Concat" [("axis", AInt axis)] ins []
    (* export_gather :279-304: indices of the data type *)
    | KGather _ axis _ _ _ inds =>
        one "Gather" [("axis", AInt axis)] (ins ++ [named n "_indices"]) [(named n "_indices", TFloat [zlen inds] (map IZR inds))]
    (* export_gather_elements :306-331 *)
    | KGatherElements _ axis _ _ _ OC OH OW inds =>
        one "GatherElements" [("axis", AInt axis)] (ins ++ [named n "_indices"])
          [(named n "_indices", TFloat [1; OC; OH; OW] (map IZR inds))]
    (* export_tile :553-577: repeats of the data type *)
    | KTile _ _ _ _ rc rh rw =>
        one "Tile" [] (ins ++ [named n "_repeat"]) [(named n "_repeat", TFloat [4] (map IZR [x_repeat0 (ex n); rc; rh; rw]))]
    (* export_flatten :261-277 *)
    | KFlatten _ _ _ _ _ => one "Flatten" [("axis", AInt 0)] ins []
    (* export_conv2d :195-225 *)
    | KConv _ _ c w b =>
        one "Conv"
          [("kernel_shape", AInts [kh c; kw c]); ("pads", AInts [pr c; pl c; pb c; pt c]);
           ("strides", AInts [strides c; strides c]); ("dilations", AInts [dilation c; dilation c])]
          (ins ++ [named n "_weight"; named n "_bias"])
          [(named n "_weight", TFloat [nf c; ic c; kh c; kw c] w); (named n "_bias", TFloat [nf c] b)]
    (* export_pool :408-430 *)
    | KMaxPool _ P =>
        one "MaxPool" [("strides", AInts [p_stride P; p_stride P]); ("kernel_shape", AInts [p_size P; p_size P]);
          ("pads", AInts [p_right P; p_left P; p_bottom P; p_top P])] ins []
    | KAvgPool _ P =>
        one "AveragePool" [("strides", AInts [p_stride P; p_stride P]); ("kernel_shape", AInts [p_size P; p_size P]);
          ("pads", AInts [p_right P; p_left P; p_bottom P; p_top P])] ins []
    (* export_pad :448-489 *)
    | KPad _ mode _ _ _ P =>
        let axes := x_axes (ex n) in
        one "Pad" [("mode", AStr (match mode with PadConstant _ _ => "constant" | PadEdge _ => "edge" | PadReflect _ => "reflect" | PadWrap _ => "wrap" end))]
          (ins ++ [named n "_pads"; (match x_constant (ex n) with Some _ => named n "_constant" | None => "" end);
                   (match axes with [] => "" | _ => named n "_axes" end)])
          ([(named n "_pads", TInt [8] [x_pad_before0 (ex n); pd_front P; pd_top P; pd_left P;
                                         x_pad_after0 (ex n); pd_back P; pd_bottom P; pd_right P])] ++
           (match axes with [] => [] | _ => [(named n "_axes", TInt [zlen axes] axes)] end) ++
           (match x_constant (ex n) with Some v => [(named n "_constant", TFloat [] [v])] | None => [] end))
    (* export_broadcast :141-174; Add has no attribute constant *)
    | KBroadcast _ Broadcast.BAdd _ _ _ => None
    | KBroadcast _ k _ cst _ =>
        let op := three (broadcast_name k) in
        match cst with
        | Some c => one op [] (ins ++ [named n "_constant"]) [(named n "_constant", TFloat (squeezed (fst c)) (snd c))]
        | None =>
            if Nat.eqb (List.length ins) 1 && existsb (String.eqb op) ["Add"; "Sub"; "Mul"; "Div"]
            then one op [] (ins ++ [named n "_constant"])
                   [(named n "_constant", TFloat [] [if existsb (String.eqb op) ["Add"; "Sub"] then 0%R else 1%R])]
            else one op [] ins []
        end
    (* export_reduce :525-551 *)
    | KReduce _ k _ _ _ axes noop =>
        one (reduce_name k) [("keepdims", AInt (x_keepdims (ex n))); ("noop_with_empty_axes", AInt (Z.b2z noop))]
          (ins ++ [named n "_axes"]) [(named n "_axes", TInt [zlen axes] axes)]
    (* export_softmax :432-446 *)
    | KSoftmax _ _ _ _ _ => one "Softmax" [] ins []
    (* export_resize :491-523; make_attribute raises on an empty list of axes *)
    | KNearest _ _ _ | KLinear _ _ | KCubic _ _ _ =>
        match x_axes (ex n) with
        | [] => None
        | axes => one "Resize" (("axes", AInts axes) :: x_resize (ex n)) (ins ++ [""; named n "_scale"; ""])
                    [(named n "_scale", TFloat [zlen (x_scale (ex n))] (x_scale (ex n)))]
        end
    end.

  (** list_activation_exporters and its functions, acetone_to_onnx_layer.py:694-878,
      called by exporter_onnx.py:62-71 *)
  Definition export_fused (n : nat) : export_result :=
    let node op a more := mkONode op a (named n "_pre_activation" :: more) (base n) in
    if fused n then
      match lact Rnum (layer_of n) with
      | ReLu => ([node "Relu" [] []], [])
      | Silu => ([node "Silu" [] []], [])
      | TanH => ([node "Tanh" [] []], [])
      | LeakyReLu alpha => ([node "LeakyRelu" [("alpha", AFloat alpha)] []], [])
      | Sigmoid => ([node "Sigmoid" [] []], [])
      | Exponential => ([node "Exp" [] []], [])
      | Logarithm => ([node "Log" [] []], [])
      | Clip mx mn => ([node "Clip" [] [named n "_clip_min"; named n "_clip_max"]],
                       [(named n "_clip_min", TFloat [] [mn]); (named n "_clip_max", TFloat [] [mx])])
      | LinearAct => ([], [])
      end
    else ([], []).

  (** export_input, acetone_to_onnx_layer.py:880-895: every layer without previous layer; a
      Constant layer has no input_shape and len(None) raises. *)
  Definition export_input (n : nat) : option (list (string * list Z)) :=
    match prevs n with
    | [] => match lkind Rnum (layer_of n) with KInput4 _ _ _ _ | KInput _ _ => Some [(base n, x_shape (ex n))] | _ => None end
    | _ => Some [] end.
  (** export_output, acetone_to_onnx_layer.py:897-923 *)
  Definition declared_shape (n : nat) : list Z :=
    match lkind Rnum (layer_of n) with
    | KInput4 _ _ _ _ | KInput _ _ => x_shape (ex n)
    | KSoftmax _ C H W axis =>
        if one_dimension C H W then
          (if axis =? 1 then [1; C * H * W; 1; 1] else if axis =? 2 then [1; 1; C * H * W; 1] else [1; 1; 1; C * H * W])
        else [1; C; H; W]
    | k => match out_channels Rnum k with Some (C, H, W) => [1; C; H; W] | None => [1; 1; 1; 1] end
    end.
  Definition export_output (n : nat) : list (string * list Z) :=
    match next_layer (md_graph Rnum md) n with [] => [(base n, declared_shape n)] | _ => [] end.

  (** onnx_exporter, exporter_onnx.py:37-80, on a list of layers. *)
  Fixpoint export_layers (ls : list nat) : option onnx_graph :=
    match ls with
    | [] => Some (mkOGraph [] [] [] [])
    | n :: r =>
        i <- export_input n ;;
        e <- export_layer n ;;
        g <- export_layers r ;;
        let f := export_fused n in
        Some (mkOGraph (i ++ g_inputs g) ((snd e ++ snd f) ++ g_init g) ((fst e ++ fst f) ++ g_nodes g) (export_output n ++ g_outputs g))
    end.
End Export.
