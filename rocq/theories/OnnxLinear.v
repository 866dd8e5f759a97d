(** * Creation of Gemm, MatMul and BatchNormalization layers from ONNX nodes:
    src/acetone_nnet/importers/ONNX_importer/create_layer.py (line numbers below
    are in this file unless another file is named).  [None] is an exception. *)
From Coq Require Import ZArith List Lia Bool.
Import ListNotations.
Open Scope Z_scope.
From Verif Require Import CMem Num Linear Broadcast OnnxOps.

(** create_gemm 563-603 and gemm/Gemm.py:55-160.  [wdims], [bias]: the
    initialisers (second and third input).  Without a third input the code calls
    to_array on a numpy array (577-578, 597): AttributeError.  ONNX float
    attributes are Python floats.  For two-dimensional biases only the first
    [n] elements are read by the layer's code. *)
Record gemm_layer (V : Type) := mkGemmLayer {
  gl_m : Z; gl_n : Z; gl_k : Z; gl_tA : bool; gl_tB : bool; gl_alpha : option V; gl_beta : option V }.
Arguments mkGemmLayer {V}.
Arguments gl_m {V}. Arguments gl_n {V}. Arguments gl_k {V}. Arguments gl_tA {V}. Arguments gl_tB {V}. Arguments gl_alpha {V}. Arguments gl_beta {V}.
Definition float_attribute (N : num) (o : option (T N)) : option (T N) :=
  match o with Some a => if neq N a (n1 N) then Some a else None | None => None end.
Definition is_none {A} (o : option A) : bool := match o with None => true | _ => false end.
(** Gemm.py:151-156: biases.shape[i] is 1 or output_shape[3 - i]. *)
Fixpoint bias_dims_ok (bd out_rev : list Z) : bool :=
  match bd, out_rev with
  | [], _ => true
  | b :: bd', o :: r => ((b =? 1) || (b =? o)) && bias_dims_ok bd' r
  | _ :: _, [] => false
  end.
Definition create_gemm (N : num) (raw_in raw_out : list Z) (tA tB : bool) (alpha beta : option (T N)) (wdims : list Z)
    (bdims : option (list Z)) : option (gemm_layer (T N)) :=
  bd <- bdims ;;
  i3 <- dims3 (get_shape raw_in) ;;
  o3 <- dims3 (get_shape raw_out) ;;
  let '(_, IH, IW) := i3 in let '(OC, OH, OW) := o3 in
  let al := float_attribute N alpha in let be := float_attribute N beta in
  match gemm_check (is_none al) (is_none be) false false with
  | GemmOk =>
      w0 <- rdl wdims 0 ;; w1 <- rdl wdims 1 ;;
      let k := if tA then IH else IW in let m := if tA then IW else IH in
      if (find_size (get_shape raw_out) =? OH * OW) && ((if tB then w1 else w0) =? k) && (OH =? m) &&
         (OW =? (if tB then w0 else w1)) && bias_dims_ok bd (rev (get_shape raw_out))
      then Some (mkGemmLayer OH OW k tA tB al be) else None
  | _ => None
  end.

(** _collect_node_inputs 1152-1166: the shape of an operand; an initialiser has
    its own, the others are resolved without extension. *)
Inductive operand_shape := Initialiser (ds : list Z) | Computed (raw : list Z).
Definition collected (o : operand_shape) : list Z := match o with Initialiser ds => ds | Computed raw => resolve raw end.
(** 665-668: leading ones, up to four dimensions. *)
Definition lead (ds : list Z) : list Z := repeat 1 (4 - length ds) ++ ds.
(** create_matmul 650-680 and matmul/MatMul.py:48-76: channels, rows, columns
    and inner dimension.  shape[1] and the negative indices are those of
    four-dimensional shapes; longer ones are not modelled. *)
Record matmul_layer := mkMatMulLayer { ml_C : Z; ml_OH : Z; ml_OW : Z; ml_K : Z }.
Definition create_matmul (left right : operand_shape) (raw_out : list Z) : option matmul_layer :=
  let a := lead (collected left) in
  let r := collected right in
  let b := lead (if (length r <? 2)%nat then r ++ [1] else r) in
  match a, b with
  | [_; C; M; K], [_; _; K'; Nn] =>
      if (K' =? K) && (find_size (get_shape raw_out) =? Nn * M * C) then Some (mkMatMulLayer C M Nn K) else None
  | _, _ => None
  end.

(** create_batch_norm 683-716 and batch_normalization/BatchNormalization.py:52-124;
    the arguments are the lengths of the four one-dimensional initialisers. *)
Record bn_layer := mkBnLayer { bl_C : Z; bl_size : Z }.
Definition create_batch_norm (raw_out : list Z) (scale bias mean var : Z) : option bn_layer :=
  o3 <- dims3 (get_shape raw_out) ;;
  let '(C, H, W) := o3 in
  if (find_size (get_shape raw_out) =? C * H * W) && (scale =? C) && (mean =? C) && (var =? C) && (bias =? C)
  then Some (mkBnLayer C (H * W)) else None.
