(** * Creation of Resize layers from ONNX nodes:
    src/acetone_nnet/importers/ONNX_importer/create_layer.py (line numbers below
    are in this file unless another file is named).  [None] is an exception.
    Scales are exact rationals here; see [rebuilt_size] for floating point. *)
From Coq Require Import ZArith List Lia Bool QArith Qround.
Import ListNotations.
Open Scope Z_scope.
From Verif Require Import CMem Resize OnnxOps OnnxMisc.

(** The attributes of a Resize node; [None] when absent.  The modes
    half_pixel_symmetric and tf_crop_and_resize are not modelled (their code is
    not C, Resize.v).  [rn_policy]: whether keep_aspect_ratio_policy is there. *)
Inductive rkind_attr := KNearest | KLinear | KCubic.
Record resize_node := mkResizeNode {
  rn_kind : option rkind_attr; rn_ctm : option cmode; rn_nearest : option nmode; rn_axes : option (list Z);
  rn_policy : bool; rn_roi : node_input (list Q); rn_scales : node_input (list Q); rn_sizes : node_input (list Z) }.
Definition given {A} (o : option A) (d : A) : A := match o with Some a => a | None => d end.

(** Resize.py:167-181: [if self.roi] on the array of an initialiser.  An empty
    array is false, the truth value of one element is that of the element (and
    then 8 elements are asked for), more elements raise. *)
Definition roi_ok (roi : node_input (list Q)) : bool :=
  match roi with
  | Given [] => true
  | Given [q] => Qeq_bool q 0
  | Given _ => false
  | _ => true
  end.
(** 360-385, 388-437 and resize/Resize.py:101-190: the dimensions of the
    output and the scales.  initializers[2] needs four inputs (410); the sizes
    are used when they are an initialiser, otherwise the scales, which have to be
    one (412-418).  Negative axes stay negative (the new value is not stored,
    368-371) and are rejected (Resize.py:161-166).  An attribute
    keep_aspect_ratio_policy is a bytes object, which is rejected
    (Resize.py:141-143). *)
Record resize_layer := mkResizeLayer { rz_kind : rkind_attr; rz_nearest : nmode; rz_OC : Z; rz_p : rparams }.
Definition create_resize (n : resize_node) (raw_in raw_out : list Z) : option resize_layer :=
  i3 <- dims3 (get_shape raw_in) ;;
  let '(C, H, W) := i3 in
  targ <- match rn_sizes n with
          | Missing => None
          | Given sizes =>
              c <- rdl sizes 1 ;; h <- rdl sizes 2 ;; w <- rdl sizes 3 ;;
              Some (c, h, w, [1; inject_Z c / inject_Z C; inject_Z h / inject_Z H; inject_Z w / inject_Z W]%Q)
          | NotInitialiser =>
              match rn_scales n with
              | Given scales =>
                  c <- rdl scales 1 ;; h <- rdl scales 2 ;; w <- rdl scales 3 ;;
                  Some (resized c C, resized h H, resized w W, scales)
              | _ => None
              end
          end ;;
  let '(OC, OH, OW, scale) := targ in
  kind <- rn_kind n ;;
  if negb (rn_policy n) && roi_ok (rn_roi n) &&
     (find_size (get_shape raw_out) =? OC * OH * OW) &&
     forallb (fun a => (0 <=? a) && (a <? 4)) (given (rn_axes n) []) &&
     forallb (fun s => negb (Qle_bool s 0)) scale
  then
    sh <- rdl scale 2 ;; sw <- rdl scale 3 ;;
    Some (mkResizeLayer kind (given (rn_nearest n) RoundPreferFloor) OC
            (mkR C H W OH OW sh sw (given (rn_ctm n) HalfPixel)))
  else None.
