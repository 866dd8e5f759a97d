(** * Which models the bounds theorem (C09) speaks about: graph conditions and
    conditions on shapes only.  Nothing is asked of the arithmetic, of the
    activations or of the values of the weights. *)
From Coq Require Import ZArith List Lia Bool QArith.
Import ListNotations.
From Verif Require Import CMem Tensor Num Activation Movement Conv IndirectProofs Pooling Pad Reduce ReduceProofs Resize ResizeProofs
  Graph GraphSpec Net LayerKinds PropertiesResize.
From Verif Require Broadcast.
Open Scope Z_scope.

Section Sized.
  Context (N : num).

  (** [ins]: the sizes of the operands of the layer.  The parameters of the
      layer have the lengths its shapes imply, the operands too. *)
  Definition well_sized (k : kind N) (ins : list Z) : Prop :=
    match k with
    | KInput4 _ _ _ _ | KInput _ _ | KConstant _ _ => False
    | KActivation _ n => ins = [n] /\ 0 <= n
    | KDense _ prev n w b => ins = [prev] /\ 0 <= prev /\ 0 <= n /\ zlen w = prev * n /\ zlen b = n
    | KMatMul _ C OH OW K => ins = [C * OH * K; C * K * OW] /\ 0 <= C /\ 0 <= OH /\ 0 <= OW /\ 0 <= K
    | KGemm _ tA tB alpha beta m n k w b => ins = [m * k] /\ 0 <= m /\ 0 <= n /\ 0 <= k /\ zlen w = k * n /\ zlen b = n
    | KBatchNorm _ C H W scale mean var bias eps =>
        ins = [C * (H * W)] /\ 0 <= C /\ 0 <= H /\ 0 <= W /\ zlen scale = C /\ zlen mean = C /\ zlen var = C /\ zlen bias = C
    | KTranspose _ C H W p1 p2 p3 => ins = [C * H * W] /\ 0 <= C /\ 0 <= H /\ 0 <= W /\ is_perm p1 p2 p3
    | KConcat _ axis OC OH OW shapes => concat_supported axis OC OH OW shapes ins
    | KGather _ axis C H W inds =>
        ins = [C * H * W] /\ 1 <= axis <= 3 /\ 0 <= C /\ 0 <= H /\ 0 <= W /\
        (forall k, 0 <= k < zlen inds -> 0 <= nthZ 0 inds k < dim C H W axis)
    | KGatherElements _ axis C H W OC OH OW inds =>
        ins = [C * H * W] /\ 1 <= axis <= 3 /\ 0 <= OC /\ 0 <= OH /\ 0 <= OW /\ zlen inds = OC * OH * OW /\
        (axis <> 1 -> OC = C) /\ (axis <> 2 -> OH = H) /\ (axis <> 3 -> OW = W) /\
        (forall k, 0 <= k < zlen inds -> 0 <= nthZ 0 inds k < dim C H W axis)
    | KTile _ C H W rc rh rw => ins = [C * H * W] /\ 0 < C /\ 0 < H /\ 0 < W /\ 0 < rc /\ 0 < rh /\ 0 < rw
    | KFlatten _ cl C H W => ins = [C * H * W] /\ 0 <= C /\ 0 <= H /\ 0 <= W
    | KConv _ impl c w b =>
        ins = [ic c * ih c * iw c] /\
        0 <= ic c /\ 0 <= ih c /\ 0 <= iw c /\ 0 <= nf c /\ 0 <= oh c /\ 0 <= ow c /\ 0 <= kh c /\ 0 <= kw c /\
        zlen w = nf c * ic c * kh c * kw c /\ zlen b = nf c /\
        match impl with SixLoops | StdGemmNN => True | IndirectGemmNN => geometry c end
    | KMaxPool _ P | KAvgPool _ P => ins = [p_C P * p_IH P * p_IW P] /\ 0 <= p_C P /\ 0 <= p_OH P /\ 0 <= p_OW P
    | KPad _ mode C H W P =>
        ins = [C * H * W] /\ pads_ok C H W P /\
        match mode with
        | PadConstant _ _ | PadEdge _ => True
        | PadReflect _ => 2 <= C /\ 2 <= H /\ 2 <= W
        | PadWrap _ => pd_front P < C /\ pd_top P < H /\ pd_left P < W
        end
    | KBroadcast _ k shapes cst o => broadcast_supported N shapes cst o ins
    | KReduce _ k C H W axes noop =>
        ins = [C * H * W] /\ 0 < C /\ 0 < H /\ 0 < W /\ (reduce_supported k axes noop \/ (axes = [] /\ noop = true))
    | KSoftmax _ C H W axis => ins = [C * H * W] /\ 0 < C /\ 0 < H /\ 0 < W /\ 1 <= axis <= 3
    | KNearest _ nm p =>
        ins = [rC p * rH p * rW p] /\ resize_wf p /\ always_inside (rmode p) nm (rsh p) /\ always_inside (rmode p) nm (rsw p) /\
        (rmode p = AlignCorners -> nm = NFloor /\ rOH p <> 1 /\ rOW p <> 1)
    | KLinear _ p | KCubic _ _ p =>
        ins = [rC p * rH p * rW p] /\ 0 <= rC p /\ 0 <= rOH p /\ 0 <= rOW p /\ 1 <= rH p /\ 1 <= rW p /\
        ~ (rH p = 1 /\ rW p = 1) /\ (rmode p = AlignCorners -> rOH p <> 1 /\ rOW p <> 1)
    end.

  Record laid_out (md : model N) (inp : nat) : Prop := {
    lo_linked : linked (md_graph N md);
    lo_acyclic : acyclic (md_graph N md);
    lo_no_repeat : no_repeated_input (md_graph N md);
    lo_constants : forall n, In n (dnn (md_graph N md)) ->
      (is_constant (md_graph N md) n = true <-> exists w, lk N md n = KConstant N w);
    lo_constant_sources : constants_are_sources (md_graph N md);
    lo_single : single_input (md_graph N md) inp;
    lo_input : (exists C H W, lk N md inp = KInput4 N C H W /\ 0 <= C /\ 0 <= H /\ 0 <= W) \/ (exists n, lk N md inp = KInput N n);
    lo_layers : forall n, In n (dnn (md_graph N md)) -> previous_layer (md_graph N md) n <> [] ->
      well_sized (lk N md n) (map (md_size N md) (previous_layer (md_graph N md) n))
  }.
End Sized.
