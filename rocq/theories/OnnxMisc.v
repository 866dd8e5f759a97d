(** * Creation of Pad and activation layers from ONNX nodes:
    src/acetone_nnet/importers/ONNX_importer/create_layer.py (line numbers below
    are in this file unless another file is named).  [None] is an exception. *)
From Coq Require Import ZArith List Lia Bool.
Import ListNotations.
Open Scope Z_scope.
From Verif Require Import CMem Tensor Num Pad Activation OnnxOps OnnxMiscSpec.

(** An optional input of a node that has to be an initialiser: missing from the
    end of the list of inputs, present but not an initialiser (an empty name or
    a computed tensor, for which look_for_initializer 116-127 returns []), or
    the value of the initialiser. *)
Inductive node_input (A : Type) := Missing | NotInitialiser | Given (a : A).
Arguments Missing {A}. Arguments NotInitialiser {A}. Arguments Given {A}.

(** create_pad 440-480.  A pad layer: the dimensions of the image, the pads of
    its three axes, the constant and the mode. *)
Record pad_layer (V : Type) := mkPadLayer { pl_mode : pad_mode; pl_C : Z; pl_H : Z; pl_W : Z; pl_pads : pads; pl_value : V }.
Arguments mkPadLayer {V}. Arguments pl_mode {V}. Arguments pl_C {V}. Arguments pl_H {V}. Arguments pl_W {V}. Arguments pl_pads {V}. Arguments pl_value {V}.
(** 459-468: with exactly two initialisers there are no axes, otherwise the
    third one is needed; a negative axis becomes [len(input_shape) - axe]. *)
Definition pad_axes (rank : Z) (axes : node_input (list Z)) : option (list Z) :=
  match axes with
  | Missing => Some []
  | NotInitialiser => None
  | Given l => Some (map (fun a => if a <? 0 then rank - a else a) l)
  end.
(** padding/Pad.py:68-70, 101-115 and create_pad_obj 95-112; [mode] is [None]
    when the attribute is absent (KeyError, 470).  The size is that of the
    output tensor. *)
Definition create_pad {V} (mode : option pad_mode) (raw_in raw_out : list Z)
    (pads_in : node_input (list Z)) (value : node_input V) (axes : node_input (list Z)) : option (pad_layer V) :=
  match value with
  | Missing => None
  | NotInitialiser => None
  | Given v =>
      ax <- pad_axes (zlen (get_shape raw_in)) axes ;;
      md <- mode ;;
      match pads_in with
      | Given ps =>
          i3 <- dims3 (get_shape raw_in) ;;
          let '(C, H, W) := i3 in
          p1 <- rdl ps 1 ;; p5 <- rdl ps 5 ;; p2 <- rdl ps 2 ;; p6 <- rdl ps 6 ;; p3 <- rdl ps 3 ;; p7 <- rdl ps 7 ;;
          let P := mkPads p1 p2 p3 p5 p6 p7 in
          if (find_size (get_shape raw_out) =? (C + p1 + p5) * (H + p2 + p6) * (W + p3 + p7)) &&
             forallb (fun a => (0 <=? a) && (a <? 4)) ax
          then Some (mkPadLayer md C H W P v) else None
      | _ => None
      end
  end.
(** The code of the layer (padding/*/*Pad*.py; modelled in Pad.v). *)
Definition pad_layer_c {V} (l : pad_layer V) (src out : bname) (act : V -> V) : mem V -> option (mem V) :=
  match pl_mode l with
  | PadConstant => constant_pad_c src out (pl_C l) (pl_H l) (pl_W l) (pl_pads l) (pl_value l) act
  | PadEdge => edge_pad_c src out (pl_C l) (pl_H l) (pl_W l) (pl_pads l) act
  | PadWrap => wrap_pad_c src out (pl_C l) (pl_H l) (pl_W l) (pl_pads l) act
  | PadReflect => reflect_pad_c src out (pl_C l) (pl_H l) (pl_W l) (pl_pads l) act
  end.

(** instantiate_activation_layer 1407-1436.  A bound of a Clip node is missing
    (the node has fewer inputs), has an empty name, is computed by another node,
    or is an initialiser: a scalar (rank zero, the only one ONNX allows) or a
    vector.  Python: [node.input[1]] on a missing input, [to_array([])] and
    [0-d array[0]] all raise. *)
Inductive clip_bound (V : Type) := BoundMissing | BoundEmpty | BoundComputed | BoundScalar (v : V) | BoundVector (l : list V).
Arguments BoundMissing {V}. Arguments BoundEmpty {V}. Arguments BoundComputed {V}. Arguments BoundScalar {V}. Arguments BoundVector {V}.
(** [Some None]: the infinite default. *)
Definition bound_value {V} (b : clip_bound V) : option (option V) :=
  match b with
  | BoundMissing | BoundComputed | BoundScalar _ => None
  | BoundEmpty => Some None
  | BoundVector l => match l with v :: _ => Some (Some v) | [] => None end
  end.
Inductive activation_node (V : Type) :=
  NRelu | NTanh | NSigmoid | NExp | NLog | NLeakyRelu (alpha : option V) | NClip (mn mx : clip_bound V).
Arguments NRelu {V}. Arguments NTanh {V}. Arguments NSigmoid {V}. Arguments NExp {V}. Arguments NLog {V}. Arguments NLeakyRelu {V}. Arguments NClip {V}.
(** The activation of the layer; [NoCode] when a bound is infinite: the emitted
    expression contains Python's str(inf), which is no C expression
    (activation_functions.py:268-285). *)
Inductive imported_activation (N : num) := WithCode (a : activation N) | NoCode.
Arguments WithCode {N}. Arguments NoCode {N}.
Definition instantiate_activation (N : num) (hundredth : T N) (n : activation_node (T N)) : option (imported_activation N) :=
  match n with
  | NRelu => Some (WithCode (ReLu))
  | NTanh => Some (WithCode (TanH))
  | NSigmoid => Some (WithCode (Sigmoid))
  | NExp => Some (WithCode (Exponential))
  | NLog => Some (WithCode (Logarithm))
  | NLeakyRelu alpha =>
      let a := match alpha with Some a => a | None => hundredth end in
      if nlt N a (n0 N) then None else Some (WithCode (LeakyReLu a))
  | NClip mn mx =>
      lo <- bound_value mn ;;
      hi <- bound_value mx ;;
      match lo, hi with
      | Some l, Some h => if nlt N h l then None else Some (WithCode (Clip h l))
      | _, _ => Some NoCode
      end
  end.
(** create_activation_layer 1439-1457: the size of the layer and its activation. *)
Definition create_activation (N : num) (hundredth : T N) (n : activation_node (T N)) (raw_out : list Z)
    : option (Z * imported_activation N) :=
  a <- instantiate_activation N hundredth n ;; Some (find_size (get_shape raw_out), a).
(** ActivationLayerDefault.py:40-57. *)
Definition imported_activation_c (N : num) (l : Z * imported_activation N) (src out : bname) : mem (T N) -> option (mem (T N)) :=
  match snd l with WithCode a => activation_c N src out (fst l) a | NoCode => fun _ => None end.

(** bypass 1503-1509 (Dropout, Unsqueeze, Reshape, LRN, Shape, Flatten): the
    output name designates the layer of the input (see Import.v for the names
    and the links), whose buffer is read without change. *)
Inductive bypassed_op := BDropout | BUnsqueeze | BReshape | BLrn | BShape | BFlatten.
Definition bypass_value {V} (op : bypassed_op) (x : list V) : list V := x.

(** create_initializer 1512-1521 on a Constant node.  The tensor of the first
    attribute: dimensions and either raw or typed elements; an attribute of
    another kind (value_float, value_ints...) has an empty tensor. *)
Inductive tensor_data (V : Type) := Raw (l : list V) | Typed (l : list V) | NoTensor.
Arguments Raw {V}. Arguments Typed {V}. Arguments NoTensor {V}.
(** The initialiser: name, data_type and raw_data are copied, dims and the typed
    fields are not; raw_data is set in all cases. *)
Definition create_initializer {V} (dims : list Z) (data : tensor_data V) : list Z * tensor_data V :=
  match data with Raw l => ([], Raw l) | Typed _ => ([], Raw []) | NoTensor => ([], Raw []) end.
(** onnx.numpy_helper.to_array: frombuffer(...).reshape(dims), an error when the
    numbers of elements differ. *)
Definition to_array {V} (t : list Z * tensor_data V) : option (list Z * list V) :=
  match snd t with
  | Raw l | Typed l => if zlen l =? fold_right Z.mul 1 (fst t) then Some (fst t, l) else None
  | NoTensor => None
  end.
