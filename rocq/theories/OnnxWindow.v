(** * Creation of Conv and pooling layers from ONNX nodes:
    src/acetone_nnet/importers/ONNX_importer/create_layer.py (line numbers below
    are in this file unless another file is named).  [None] is an exception. *)
From Coq Require Import ZArith List Lia Bool.
Import ListNotations.
Open Scope Z_scope.
From Verif Require Import CMem Tensor Num Padding Conv Pooling OnnxOps OnnxWindowSpec.

(** 286-297 (create_conv), 1061-1072, 1100-1111: the padding argument. *)
Definition import_padding (n : window_node) : option padding :=
  match w_auto n with
  | NotSet =>
      match w_pads n with
      | None => Some Valid
      | Some l => t <- rdl l 0 ;; lf <- rdl l 1 ;; b <- rdl l 2 ;; r <- rdl l 3 ;; Some (Explicit t lf b r)
      end
  | AutoValid => Some Valid
  | AutoUpper => Some SameUpper
  | AutoLower => Some SameLower
  end.

Definition same_list (a b : list Z) : bool := if list_eq_dec Z.eq_dec a b then true else false.

(** create_conv 267-325 and convolution/Conv2D.py:70-103, 155-225.  The group
    attribute is read and not passed on: the constructor's default is 1.
    [wdims] is weights.shape; the bias is the third input, or zeros.
    math.floor(a / b) is modelled by the integer quotient. *)
Definition create_conv {V} (z : V) (n : window_node) (raw_in raw_out wdims : list Z) (bias : option (list V)) : option (conv_params * list V) :=
  i3 <- dims3 (get_shape raw_in) ;;
  o3 <- dims3 (get_shape raw_out) ;;
  let '(C, H, W) := i3 in let '(OC, OH, OW) := o3 in
  p <- import_padding n ;;
  s <- rdl (or_default (w_strides n) [1; 1]) 0 ;;
  kernel <- w_kernel n ;;
  kh <- rdl kernel 0 ;; kw <- rdl kernel 1 ;;
  d <- rdl (or_default (w_dilations n) [1]) 0 ;;
  M <- rdl wdims 0 ;;
  let b := or_default bias (repeat z (Z.to_nat OC)) in
  let '(pright, pleft, pbottom, ptop) := compute_padding p H W kh kw s d in
  if (find_size (get_shape raw_out) =? M * OH * OW) && same_list wdims [M; C; kh; kw] && (zlen b =? M) &&
     (OH =? conv_output_size H ptop pbottom kh s d) && (OW =? conv_output_size W pleft pright kw s d)
  then Some (mkConv C H W M OH OW kh kw s d ptop pleft pbottom pright, b) else None.

(** create_max_pool 1047-1083, create_average_pool 1086-1122 and
    pooling/Pooling2D.py:49-77, 119-134.  dilations, ceil_mode and
    count_include_pad are not passed on. *)
Definition create_pool_with (p : padding) (s k : Z) (raw_in raw_out : list Z) : option pool :=
  i3 <- dims3 (get_shape raw_in) ;;
  o3 <- dims3 (get_shape raw_out) ;;
  let '(C, H, W) := i3 in let '(OC, OH, OW) := o3 in
  let '(pright, pleft, pbottom, ptop) := compute_padding p H W k k s 1 in
  if (find_size (get_shape raw_out) =? C * OH * OW) &&
     (OH =? (H + pbottom + ptop - k) / s + 1) && (OW =? (W + pleft + pright - k) / s + 1)
  then Some (mkPool C H W OH OW k s ptop pleft pbottom pright) else None.
Definition create_pool (n : window_node) (raw_in raw_out : list Z) : option pool :=
  p <- import_padding n ;;
  s <- rdl (or_default (w_strides n) [1; 1]) 0 ;;
  kernel <- w_kernel n ;;
  k <- rdl kernel 0 ;;
  create_pool_with p s k raw_in raw_out.
(** create_global_average_pool 1125-1148. *)
Definition create_global_average_pool (raw_in raw_out : list Z) : option pool :=
  k <- rdl (get_shape raw_in) 2 ;;
  create_pool_with (Explicit 0 0 0 0) 1 k raw_in raw_out.
