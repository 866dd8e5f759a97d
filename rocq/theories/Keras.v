(** * The Keras importer: src/acetone_nnet/importers/H5_importer/parser_h5.py
    (line numbers below are in this file unless another file is named).
    [None] is an exception.  The links between layers are in Import.v.
    Shapes are given without their first entry, the batch size: it has to be
    None (an integer makes np.array(...) an integer array, whose elements the
    constructors reject because their type is not int). *)
From Coq Require Import String.
From Coq Require Import ZArith List Lia Bool Reals QArith.
Import ListNotations.
From Verif Require Import CMem Tensor Num RealInst Padding Conv Pooling Pad Reduce Graph LayerKinds Net Import PropertiesImport.
From Verif Require Activation Broadcast.
From Verif Require Import KerasSpec.
Open Scope list_scope.
Open Scope Z_scope.

(** 156-161: the condition is a generator expression, which is always true:
    data_format is "channels_last" whatever the layers' format.
    83-94 get_output_dimensions, 97-116 get_input_dimensions for that format. *)
Definition moved (ds : list Z) : list Z := match ds with [a; b; c] => [c; a; b] | _ => ds end.
(** shape[1], shape[2], shape[3] in the constructors; IndexError otherwise. *)
Definition chw (ds : list Z) : option (Z * Z * Z) :=
  match moved ds with c :: h :: w :: _ => Some (c, h, w) | _ => None end.

(** 119-141 create_actv_function_obj *)
Definition create_actv (a : activation) : Activation.activation Rnum :=
  match a with
  | sigmoid => Activation.Sigmoid
  | relu => Activation.ReLu
  | tanh => Activation.TanH
  | linear => Activation.LinearAct
  | leaky_relu => @Activation.LeakyReLu Rnum (2 / 10)%R
  | softmax => Activation.LinearAct
  | swish => Activation.Silu
  end.

(** layer_keras.padding, compared in ir/layer.py:136-160 *)
Definition padding_arg (p : padding) : Padding.padding := match p with valid => Valid | same => SameUpper end.

(** 216-234 and dense/Dense.py:36-90.  get_weights()[1] raises IndexError when
    the layer has no bias.  The kernel is [I, O]; nb of inputs: size of the
    previous layer. *)
Definition import_dense (units : Z) (kernel : list R) (bias : option (list R)) (a : activation) (ds out : list Z) : option (layer Rnum) :=
  b <- bias ;;
  if (size_of out =? units) && (size_of out =? zlen b)
  then Some (mkLayer Rnum (KDense Rnum (size_of ds) (size_of out) kernel b) (create_actv a)) else None.

(** 246-248: np.moveaxis(-1, 0) then np.moveaxis(-1, 1): [kh, kw, c, f] to [f, c, kh, kw]. *)
Definition reordered (kh kw C F : Z) (kernel : list R) : list R :=
  tab3 (F * C) kh kw (fun q a b => nthZ 0%R kernel (((a * kw + b) * C + q mod C) * F + q / C)).
(** 236-269 and convolution/Conv2D.py:70-103, 155-225.  strides[0] and
    dilation_rate[0] only; groups is not read: the constructor's default is 1. *)
Definition import_conv (impl : conv_impl) (filters kh kw sh sw : Z) (p : padding) (dh dw groups : Z) (kernel : list R) (bias : option (list R)) (a : activation)
    (ds out : list Z) : option (layer Rnum) :=
  b <- bias ;;
  i3 <- chw ds ;; o3 <- chw out ;;
  let '(C, H, W) := i3 in let '(_, OH, OW) := o3 in
  let '(pright, pleft, pbottom, ptop) := compute_padding (padding_arg p) H W kh kw sh dh in
  if (size_of out =? filters * OH * OW) && (C / groups =? C) && (zlen b =? filters) &&
     (OH =? conv_output_size H ptop pbottom kh sh dh) && (OW =? conv_output_size W pleft pright kw sh dh)
  then Some (mkLayer Rnum (KConv Rnum impl (mkConv C H W filters OH OW kh kw sh dh ptop pleft pbottom pright)
                             (reordered kh kw (C / groups) filters kernel) b) (create_actv a)) else None.

(** 271-301 and pooling/Pooling2D.py:49-77, 119-134.  pool_size[0] and strides[0] only. *)
Definition import_pool (ph sh : Z) (p : padding) (ds out : list Z) : option pool :=
  i3 <- chw ds ;; o3 <- chw out ;;
  let '(C, H, W) := i3 in let '(_, OH, OW) := o3 in
  let '(pright, pleft, pbottom, ptop) := compute_padding (padding_arg p) H W ph ph sh 1 in
  if (size_of out =? C * OH * OW) && (OH =? (H + pbottom + ptop - ph) / sh + 1) && (OW =? (W + pleft + pright - ph) / sh + 1)
  then Some (mkPool C H W OH OW ph sh ptop pleft pbottom pright) else None.

(** 303-310 and flatten/Flatten.py:40-70 *)
Definition import_flatten (ds out : list Z) : option (layer Rnum) :=
  i3 <- chw ds ;; let '(C, H, W) := i3 in
  if size_of out =? C * H * W then Some (mkLayer Rnum (KFlatten Rnum true C H W) Activation.LinearAct) else None.

(** 312-388: one branch per class.  With a single operand the shape is not in a
    list and indexing it with two indices raises IndexError
    (broadcast/Broadcast.py:88).  Broadcast.py:97-127: the checks. *)
Definition bkind_of (m : merge) : Broadcast.bkind :=
  match m with Add => Broadcast.BAdd | Multiply => Broadcast.BMul | Subtract => Broadcast.BSub | Maximum => Broadcast.BMax
             | Minimum => Broadcast.BMin | Average => Broadcast.BAvg end.
Definition max_of (l : list Z) : Z := match l with [] => 0 | v :: r => fold_left Z.max r v end.
Definition mk_shape (t : Z * Z * Z) : Broadcast.shape := let '(c, h, w) := t in Broadcast.mkShape c h w.
Definition import_merge (m : merge) (ins : list (list Z)) (out : list Z) : option (layer Rnum) :=
  o3 <- chw out ;; let '(OC, OH, OW) := o3 in
  i3s <- all_some (map chw ins) ;;
  if (2 <=? zlen ins) && (size_of out =? OC * OH * OW) &&
     (OC =? max_of (map (fun t => fst (fst t)) i3s)) && (OH =? max_of (map (fun t => snd (fst t)) i3s)) && (OW =? max_of (map snd i3s)) &&
     forallb (fun t => let '(c, h, w) := t in ((c =? 1) || (c =? OC)) && ((h =? 1) || (h =? OH)) && ((w =? 1) || (w =? OW))) i3s
  then Some (mkLayer Rnum (KBroadcast Rnum (bkind_of m) (map mk_shape i3s) None (Broadcast.mkShape OC OH OW)) Activation.LinearAct) else None.

(** 390-405 and concatenate/Concatenate.py:36-117 *)
Definition concat_axis (axis : Z) : Z := if axis =? 3 then 1 else axis + 1.
Definition import_concat (axis : Z) (ins : list (list Z)) (out : list Z) : option (layer Rnum) :=
  let ax := concat_axis axis in
  o3 <- chw out ;; let '(OC, OH, OW) := o3 in
  i3s <- all_some (map chw ins) ;;
  if (size_of out =? OC * OH * OW) && (1 <=? ax) && (ax <=? 3) && (2 <=? zlen ins) &&
     forallb (fun t => let '(c, h, w) := t in ((ax =? 1) || (c =? OC)) && ((ax =? 2) || (h =? OH)) && ((ax =? 3) || (w =? OW))) i3s &&
     (Movement.dim OC OH OW ax =? fold_right (fun t s => let '(c, h, w) := t in Movement.dim c h w ax + s) 0 i3s)
  then Some (mkLayer Rnum (KConcat Rnum ax OC OH OW i3s) Activation.LinearAct) else None.

(** 407-428: pads = [0, 0, top, left, 0, 0, bottom, right], and padding/Pad.py:52-105.
    Keras keeps ((top, bottom), (left, right)) whatever the argument's form. *)
Definition import_pad (top bottom lft rgt : Z) (ds out : list Z) : option (layer Rnum) :=
  i3 <- chw ds ;; let '(C, H, W) := i3 in
  if size_of out =? C * (H + top + bottom) * (W + lft + rgt)
  then Some (mkLayer Rnum (KPad Rnum (PadConstant Rnum 0%R) C H W (mkPads 0 top lft 0 bottom rgt)) Activation.LinearAct) else None.

(** 430-442 and batch_normalization/BatchNormalization.py:50-125.
    get_weights() is [gamma, beta, mean, var] without the missing ones:
    index 3 raises IndexError when one is missing.  axis is not read. *)
Definition import_bn (gamma beta : option (list R)) (mean var : list R) (epsilon : R) (ds out : list Z) : option (layer Rnum) :=
  g <- gamma ;; b <- beta ;;
  i3 <- chw ds ;; let '(C, H, W) := i3 in
  if (size_of out =? C * H * W) && (zlen g =? C) && (zlen mean =? C) && (zlen var =? C) && (zlen b =? C)
  then Some (mkLayer Rnum (KBatchNorm Rnum C H W g mean var b epsilon) Activation.LinearAct) else None.

(** 475-490 and softmax/Softmax.py:48-95, SoftmaxDefault.py:84-98: axis is None.
    When no dimension equals the size, the loop bounds and the indices of the
    template have no value and there is no C code: [None]. *)
Definition import_softmax (out : list Z) : option (layer Rnum) :=
  if existsb (Z.eqb (size_of out)) (moved out) then Some (mkLayer Rnum (KSoftmax Rnum 1 1 (size_of out) 3) Activation.LinearAct) else None.

(** 210-214: hasattr(layer, "activation") and activation == softmax *)
Definition is_softmax (o : op) : bool :=
  match o with Dense _ _ _ softmax | Conv2D _ _ _ _ _ _ _ _ _ _ _ _ softmax => true | _ => false end.
(** 444-445: continue *)
Definition skipped (o : op) : bool := match o with Dropout | Reshape _ => true | _ => false end.

(** 205-490: the layers created for one Keras layer. *)
Definition import_layer (impl : conv_impl) (o : op) (ins : list (list Z)) (out : list Z) : option (layer Rnum) :=
  match o, ins with
  | Dense units kernel bias a, [ds] => import_dense units kernel bias a ds out
  | Conv2D _ filters kh kw sh sw p dh dw groups kernel bias a, [ds] => import_conv impl filters kh kw sh sw p dh dw groups kernel bias a ds out
  | MaxPooling2D _ ph pw sh sw p, [ds] => P <- import_pool ph sh p ds out ;; Some (mkLayer Rnum (KMaxPool Rnum P) Activation.LinearAct)
  | AveragePooling2D _ ph pw sh sw p, [ds] => P <- import_pool ph sh p ds out ;; Some (mkLayer Rnum (KAvgPool Rnum P) Activation.LinearAct)
  | Flatten _, [ds] => import_flatten ds out
  | Merge m, _ => import_merge m ins out
  | Concatenate axis, _ => import_concat axis ins out
  | ZeroPadding2D _ t b l r, [ds] => import_pad t b l r ds out
  | BatchNormalization _ gamma beta mean var eps, [ds] => import_bn gamma beta mean var eps ds out
  | _, _ => None
  end.
Definition import_op (impl : conv_impl) (o : op) (ins : list (list Z)) (out : list Z) : option (list (layer Rnum)) :=
  if skipped o then Some []
  else l <- import_layer impl o ins out ;;
       if is_softmax o then sm <- import_softmax out ;; Some [l; sm] else Some [l].

(** 180-199 and input/Input.py:40-75, InputDefault.py *)
Definition import_input (ds : list Z) : layer Rnum :=
  mkLayer Rnum (match moved ds with [c; h; w] => KInput4 Rnum c h w | _ => KInput Rnum (size_of ds) end) Activation.LinearAct.

(** layer.input_shape and layer.output_shape are the dimensions Keras infers. *)
Fixpoint shape_of (env : list (string * list Z)) (nm : string) : option (list Z) :=
  match env with [] => None | (k, ds) :: r => if String.eqb nm k then Some ds else shape_of r nm end.
Fixpoint import_nodes (impl : conv_impl) (env : list (string * list Z)) (ns : list node) : option (list (layer Rnum)) :=
  match ns with
  | [] => Some []
  | n :: r =>
      ins <- all_some (map (shape_of env) (n_inputs n)) ;;
      out <- out_dims (n_op n) ins ;;
      ls <- import_op impl (n_op n) ins out ;;
      rest <- import_nodes impl ((n_name n, out) :: env) r ;;
      Some (ls ++ rest)
  end.

(** 142-495 load_keras.  A Sequential model's layers do not contain its input
    layer, a functional model's start with it. *)
Definition link_node (n : node) : keras_layer := mkKeras (n_name n) (skipped (n_op n)) (is_softmax (n_op n)) (n_inputs n).
Definition load_model (impl : conv_impl) (m : kmodel) : option (model Rnum) :=
  st <- (if k_sequential m then load_keras true 0 (map link_node (k_nodes m))
         else load_keras false 1 (mkKeras (k_input m) false false [] :: map link_node (k_nodes m))) ;;
  ls <- import_nodes impl [(k_input m, k_shape m)] (k_nodes m) ;;
  let all := import_input (k_shape m) :: ls in
  Some (mkModel Rnum (keras_graph st) (fun n => nth n all (import_input (k_shape m))) true).
