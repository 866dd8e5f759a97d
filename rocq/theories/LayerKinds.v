(** * Concrete networks: one constructor per modelled layer class.
    [gen_code] is the emitted C, [py_forward] the Python forward function,
    [meaning] the documented function of the layer (with its fused activation).
    Not covered here: LSTM, AddBias, Dot, Conv2DGemmTarget, the channels_last
    code generation, Average (its Python forward modifies its operand, see
    C27_average_aliasing_refuted) and quantised layers. *)
From Coq Require Import ZArith List Lia Bool QArith.
Import ListNotations.
From Verif Require Import CMem Tensor Num Activation Movement MovementProofs Linear Conv IndirectProofs Pooling
  Pad Reduce ReduceProofs Resize ResizeProofs Graph GraphSpec Net.
From Verif Require Broadcast BroadcastProofs.
From Verif Require Import PropertiesMovement PropertiesActivation PropertiesPooling PropertiesPad PropertiesResize.
Open Scope Z_scope.

Section Kinds.
  Context (N : num) (ninf : T N) (q : Q -> T N).   (* ninf: -INFINITY; q: a coordinate as an element *)
  Notation V := (T N).
  Notation mem := (mem V).
  Notation z := (n0 N).

  Inductive conv_impl := SixLoops | StdGemmNN | IndirectGemmNN.
  Inductive pad_mode := PadConstant (value : V) | PadEdge | PadReflect | PadWrap.

  Inductive kind :=
  | KInput4 (C H W : Z)                     (* InputLayer with a 4D input_shape (1,C,H,W) *)
  | KInput (n : Z)                          (* InputLayer with another shape *)
  | KConstant (w : list V)
  | KActivation (n : Z)
  | KDense (prev n : Z) (w b : list V)
  | KMatMul (C OH OW K : Z)
  | KGemm (tA tB : bool) (alpha beta : option V) (m n k : Z) (w b : list V)
  | KBatchNorm (C H W : Z) (scale mean var bias : list V) (eps : V)
  | KTranspose (C H W p1 p2 p3 : Z)
  | KConcat (axis OC OH OW : Z) (shapes : list (Z * Z * Z))
  | KGather (axis C H W : Z) (inds : list Z)
  | KGatherElements (axis C H W OC OH OW : Z) (inds : list Z)
  | KTile (C H W rc rh rw : Z)
  | KFlatten (channels_last : bool) (C H W : Z)
  | KConv (impl : conv_impl) (c : conv_params) (w b : list V)
  | KMaxPool (P : pool)
  | KAvgPool (P : pool)
  | KPad (mode : pad_mode) (C H W : Z) (P : pads)
  | KBroadcast (k : Broadcast.bkind) (shapes : list Broadcast.shape) (cst : option (Broadcast.tensor N)) (O : Broadcast.shape)
  | KReduce (k : rkind) (C H W : Z) (axes : list Z) (noop : bool)
  | KSoftmax (C H W axis : Z)
  | KNearest (nm : nmode) (p : rparams)
  | KLinear (p : rparams)
  | KCubic (a : V) (p : rparams).

  Record layer := mkLayer { lkind : kind; lact : activation N }.

  (** Layer.size as computed by the constructors. *)
  Definition out_size (k : kind) : Z :=
    match k with
    | KInput4 C H W => C * H * W
    | KInput n => n
    | KConstant w => zlen w
    | KActivation n => n
    | KDense _ n _ _ => n
    | KMatMul C OH OW _ => C * OH * OW
    | KGemm _ _ _ _ m n _ _ _ => m * n
    | KBatchNorm C H W _ _ _ _ _ => C * (H * W)
    | KTranspose C H W _ _ _ => C * H * W
    | KConcat _ OC OH OW _ => OC * OH * OW
    | KGather axis C H W inds =>
        (if axis =? 1 then zlen inds else C) * (if axis =? 2 then zlen inds else H) * (if axis =? 3 then zlen inds else W)
    | KGatherElements _ _ _ _ OC OH OW _ => OC * OH * OW
    | KTile C H W rc rh rw => (rc * C) * (rh * H) * (rw * W)
    | KFlatten _ C H W => C * H * W
    | KConv _ c _ _ => nf c * oh c * ow c
    | KMaxPool P | KAvgPool P => p_C P * p_OH P * p_OW P
    | KPad _ C H W P => pad_size C H W P
    | KBroadcast _ _ _ o => Broadcast.sC o * Broadcast.sH o * Broadcast.sW o
    | KReduce _ C H W axes noop => red_dim 1 C axes noop * red_dim 2 H axes noop * red_dim 3 W axes noop
    | KSoftmax C H W _ => C * H * W
    | KNearest _ p | KLinear p | KCubic _ p => rC p * rOH p * rOW p
    end.

  (** Attributes output_channels, output_height, output_width, when the class has them. *)
  Definition out_channels (k : kind) : option (Z * Z * Z) :=
    match k with
    | KInput4 _ _ _ | KInput _ | KConstant _ | KActivation _ | KDense _ _ _ _ | KFlatten _ _ _ _ => None
    | KMatMul C OH OW _ => Some (C, OH, OW)
    | KGemm _ _ _ _ m n _ _ _ => Some (1, m, n)
    | KBatchNorm C H W _ _ _ _ _ => Some (C, H, W)
    | KTranspose C H W p1 p2 p3 => Some (dim C H W p1, dim C H W p2, dim C H W p3)
    | KConcat _ OC OH OW _ => Some (OC, OH, OW)
    | KGather axis C H W inds =>
        Some (if axis =? 1 then zlen inds else C, if axis =? 2 then zlen inds else H, if axis =? 3 then zlen inds else W)
    | KGatherElements _ _ _ _ OC OH OW _ => Some (OC, OH, OW)
    | KTile C H W rc rh rw => Some (rc * C, rh * H, rw * W)
    | KConv _ c _ _ => Some (nf c, oh c, ow c)
    | KMaxPool P | KAvgPool P => Some (p_C P, p_OH P, p_OW P)
    | KPad _ C H W P => Some (C + pd_front P + pd_back P, H + pd_top P + pd_bottom P, W + pd_left P + pd_right P)
    | KBroadcast _ _ _ o => Some (Broadcast.sC o, Broadcast.sH o, Broadcast.sW o)
    | KReduce _ C H W axes noop => Some (red_dim 1 C axes noop, red_dim 2 H axes noop, red_dim 3 W axes noop)
    | KSoftmax C H W _ => if one_dimension C H W then None else Some (C, H, W)
    | KNearest _ p | KLinear p | KCubic _ p => Some (rC p, rOH p, rOW p)
    end.

  (** ** The emitted C.  [last]: the model's data_format is channels_last
      (InputDefault.py:46-63); a wrong number of operands cannot occur. *)
  Definition pred_cst (src : bname) : option nat := match src with Cst k => Some k | _ => None end.
  Definition operands (srcs : list bname) (shapes : list (Z * Z * Z)) : list Movement.operand :=
    map (fun p => let '(c, h, w) := snd p in mkOperand (fst p) c h w) (combine srcs shapes).
  Definition gen_code (last : bool) (l : layer) (srcs : list bname) (out : bname) : mem -> option mem :=
    let act := c_act N (lact l) in
    match lkind l, srcs with
    | KInput4 C H W, [s] => if last then last_to_first_c s out C H W else copy_c s out (C * H * W)
    | KInput n, [s] => copy_c s out n
    | KConstant w, _ => constant_c w out (zlen w)
    | KActivation n, [s] => activation_c N s out n (lact l)
    | KDense prev n w b, [s] => dense_c N s out prev n w b act
    | KMatMul C OH OW K, [s1; s2] => matmul_c N s1 s2 out C OH OW K act
    | KGemm tA tB alpha beta m n k w b, [s] => gemm_c N s out tA tB alpha beta m n k w b act
    | KBatchNorm C H W scale mean var bias eps, [s] => batchnorm_c N s out C (H * W) scale mean var bias eps act
    | KTranspose C H W p1 p2 p3, [s] => transpose_c s out C H W p1 p2 p3 act
    | KConcat axis OC OH OW shapes, _ => concat_c out axis OC OH OW (operands srcs shapes) act
    | KGather axis C H W inds, [s] =>
        gather_c s out axis C H W (if axis =? 1 then zlen inds else C) (if axis =? 2 then zlen inds else H)
          (if axis =? 3 then zlen inds else W) inds act
    | KGatherElements axis C H W OC OH OW inds, [s] => gather_elements_c s out axis H W OC OH OW inds act
    | KTile C H W rc rh rw, [s] => tile_c s out C H W rc rh rw act
    | KFlatten cl C H W, [s] => flatten_c out cl C H W
    | KConv SixLoops c w b, [s] => conv6_c N s out c w b act
    | KConv StdGemmNN c w b, [s] => std_gemm_c N NN (pred_cst s) out c w b act
    | KConv IndirectGemmNN c w b, [s] => indirect_nn_c N s out c w b act
    | KMaxPool P, [s] => max_pool_c N ninf P s out act
    | KAvgPool P, [s] => avg_pool_c N P s out act
    | KPad (PadConstant v) C H W P, [s] => constant_pad_c s out C H W P v act
    | KPad PadEdge C H W P, [s] => edge_pad_c s out C H W P act
    | KPad PadReflect C H W P, [s] => reflect_pad_c s out C H W P act
    | KPad PadWrap C H W P, [s] => wrap_pad_c s out C H W P act
    | KBroadcast k shapes cst o, _ => Broadcast.broadcast_c N k (combine srcs shapes) cst out o act
    | KReduce k C H W axes noop, [s] => reduce_c N k s out C H W axes noop act
    | KSoftmax C H W axis, [s] => softmax_c N s out C H W axis act
    | KNearest nm p, [s] => nearest_c N nm s out p act
    | KLinear p, [s] => match linear_c N q s out p act with Some c => c | None => fun _ => None end
    | KCubic a p, [s] => match cubic_c N q a s out p act with Some c => c | None => fun _ => None end
    | _, _ => fun _ => None
    end.

  (** ** Python.  A raised exception is shown as the empty tensor. *)
  Definition or_nil (o : option (list V)) : list V := match o with Some y => y | None => [] end.
  Definition shaped_inputs (shapes : list (Z * Z * Z)) (xs : list (list V)) : list (@shaped V) :=
    map (fun p => let '(c, h, w) := fst p in (c, h, w, snd p)) (combine shapes xs).
  Definition np_concat_list (axis : Z) (l : list (@shaped V)) : list V :=
    match l with [] => [] | x0 :: xs => snd (np_concat z axis x0 xs) end.
  Definition pad_fn (mode : pad_mode) (n : Z) : Z -> Z :=
    match mode with PadConstant _ => fun k => k | PadEdge => clamp n | PadReflect => mirror n | PadWrap => fun k => k mod n end.
  Definition pad_py (mode : pad_mode) (C H W : Z) (P : pads) (x : list V) : list V :=
    match mode with
    | PadConstant v => np_pad_constant z v C H W P x
    | _ => np_pad z (pad_fn mode C) (pad_fn mode H) (pad_fn mode W) C H W P x
    end.
  Definition py_forward (l : layer) (xs : list (list V)) : list V :=
    let act := compute N (lact l) in
    match lkind l, xs with
    | KInput4 _ _ _, [x] | KInput _, [x] => x
    | KConstant w, _ => w
    | KActivation _, [x] => activation_py N (lact l) x
    | KDense prev n w b, [x] => dense_py N prev n w b act x
    | KMatMul C OH OW K, [x; y] => matmul_py N C C OH OW K act x y
    | KGemm tA tB alpha beta m n k w b, [x] =>
        gemm_py N tA tB alpha beta (if tA then k else m) (if tA then m else k) (if tB then n else k) (if tB then k else n) w b act x
    | KBatchNorm C H W scale mean var bias eps, [x] => batchnorm_py N C (H * W) scale mean var bias eps act x
    | KTranspose C H W p1 p2 p3, [x] => np_transpose z C H W p1 p2 p3 x
    | KConcat axis OC OH OW shapes, _ => map act (np_concat_list axis (shaped_inputs shapes xs))
    | KGather axis C H W inds, [x] => np_take z axis C H W inds x
    | KGatherElements axis C H W OC OH OW inds, [x] => gather_elements_py z axis H W OC OH OW inds x
    | KTile C H W rc rh rw, [x] => np_tile z C H W rc rh rw x
    | KFlatten cl C H W, [x] => flatten_py z cl C H W x
    | KConv _ c w b, [x] => conv_py N c w b act x
    | KMaxPool P, [x] => max_pool_py N ninf P x
    | KAvgPool P, [x] => avg_pool_py N P x
    | KPad mode C H W P, [x] => map act (pad_py mode C H W P x)
    | KBroadcast k shapes cst o, _ => or_nil (Broadcast.broadcast_py N k (combine shapes xs) cst act)
    | KReduce k C H W axes noop, [x] => reduce_py N k C H W axes noop x
    | KSoftmax C H W axis, [x] => softmax_py N C H W axis x
    | KNearest nm p, [x] => or_nil (nearest_py N nm p x)
    | KLinear p, [x] => or_nil (linear_py N q p z x)
    | KCubic a p, [x] => or_nil (cubic_py N q a p z x)
    | _, _ => []
    end.

  (** ** Documented function of a layer, for an element-wise activation [act]. *)
  Definition meaning_with (act : V -> V) (l : layer) (xs : list (list V)) : list V :=
    match lkind l, xs with
    | KInput4 _ _ _, [x] | KInput _, [x] => x
    | KConstant w, _ => w
    | KActivation n, [x] => map act x
    | KDense prev n w b, [x] =>
        tab n (fun i => act (nadd N (nsum N prev (fun j => nmul N (nthZ z x j) (at2 z n w j i))) (nthZ z b i)))
    | KMatMul C OH OW K, [x; y] =>
        map act (tab3 C OH OW (fun f i j => nsum N K (fun k => nmul N (at3 z OH K x f i k) (at3 z K OW y f k j))))
    | KGemm tA tB alpha beta m n k w b, [x] =>
        tab2 m n (fun i j =>
          let A i p := if tA then at2 z m x p i else at2 z k x i p in
          let B p j := if tB then at2 z k w j p else at2 z n w p j in
          act (nadd N (scaled alpha (nsum N k (fun p => nmul N (A i p) (B p j)))) (scaled beta (nthZ z b j))))
    | KBatchNorm C H W scale mean var bias eps, [x] =>
        map act (tab2 C (H * W) (fun f k =>
          nadd N (ndiv N (nmul N (nthZ z scale f) (nsub N (at2 z (H * W) x f k) (nthZ z mean f)))
                         (nsqrt N (nadd N (nthZ z var f) eps))) (nthZ z bias f)))
    | KTranspose C H W p1 p2 p3, [x] => map act (np_transpose z C H W p1 p2 p3 x)
    | KConcat axis OC OH OW shapes, _ => map act (tab3 OC OH OW (slice_at z axis 0 (shaped_inputs shapes xs)))
    | KGather axis C H W inds, [x] =>
        map act (tab3 (if axis =? 1 then zlen inds else C) (if axis =? 2 then zlen inds else H) (if axis =? 3 then zlen inds else W)
          (fun f i j => at3 z H W x (if axis =? 1 then nthZ 0 inds f else f) (if axis =? 2 then nthZ 0 inds i else i)
                                    (if axis =? 3 then nthZ 0 inds j else j)))
    | KGatherElements axis C H W OC OH OW inds, [x] =>
        map act (tab3 OC OH OW (fun f i j => let k := at3 0 OH OW inds f i j in
          at3 z H W x (if axis =? 1 then k else f) (if axis =? 2 then k else i) (if axis =? 3 then k else j)))
    | KTile C H W rc rh rw, [x] =>
        map act (tab3 (rc * C) (rh * H) (rw * W) (fun f i j => at3 z H W x (f mod C) (i mod H) (j mod W)))
    | KFlatten cl C H W, [x] => if cl then tab3 H W C (fun i j f => at3 z H W x f i j) else x
    | KConv _ c w b, [x] => convolution N c w b act x
    | KMaxPool P, [x] =>
        tab3 (p_C P) (p_OH P) (p_OW P) (fun f i j => act (np_amax N ninf
          (window (image z P x f) (p_IH P) (p_IW P) (p_size P) (p_stride P) (p_top P) (p_left P) i j)))
    | KAvgPool P, [x] =>
        tab3 (p_C P) (p_OH P) (p_OW P) (fun f i j => act (np_mean N
          (window (image z P x f) (p_IH P) (p_IW P) (p_size P) (p_stride P) (p_top P) (p_left P) i j)))
    | KPad mode C H W P, [x] => map act (pad_py mode C H W P x)
    | KBroadcast k shapes cst o, _ => BroadcastProofs.broadcast_result N k (combine shapes xs) cst o act
    | KReduce k C H W axes noop, [x] => map act (reduce_py N k C H W axes noop x)
    | KSoftmax C H W axis, [x] => map act (softmax_py N C H W axis x)
    | KNearest nm p, [x] => map act (or_nil (nearest_py N nm p x))
    | KLinear p, [x] => map act (or_nil (linear_py N q p z x))
    | KCubic a p, [x] => map act (or_nil (cubic_py N q a p z x))
    | _, _ => []
    end.
  Definition meaning (l : layer) : list (list V) -> list V := meaning_with (compute N (lact l)) l.

  (** ** Which layers are covered.  [ins]: sizes of the operands.
      The emitted activation text has the meaning of the Python function: always
      for the exact ones, otherwise when the numbers form an ordered ring. *)
  Definition act_supported (a : activation N) : Prop :=
    exact_in_floats a \/ (ring_laws N /\ order_laws N /\ accepted N a).
  Definition pool_supported (P : pool) : Prop :=
    0 <= p_C P /\ 0 <= p_OH P /\ 0 <= p_OW P /\ p_top P = p_left P.
  Definition conv_supported (impl : conv_impl) (c : conv_params) (w b : list V) : Prop :=
    0 <= ic c /\ 0 <= ih c /\ 0 <= iw c /\ 0 <= nf c /\ 0 <= oh c /\ 0 <= ow c /\ 0 <= kh c /\ 0 <= kw c /\
    zlen w = nf c * ic c * kh c * kw c /\ zlen b = nf c /\
    match impl with
    | SixLoops => zero_product_law N
    | StdGemmNN => zero_product_law N /\ mul_comm_law N /\ dilation c = 1
    | IndirectGemmNN => mul_comm_law N /\ dilation c = 1 /\ geometry c /\
        (covers c \/ (pr c = 0 /\ pl c = 0 /\ pb c = 0 /\ pt c = 0))
    end.
  Definition concat_supported (axis OC OH OW : Z) (shapes : list (Z * Z * Z)) (ins : list Z) : Prop :=
    1 <= axis <= 3 /\ 0 <= OC /\ 0 <= OH /\ 0 <= OW /\
    ins = map (fun s => let '(c, h, w) := s in c * h * w) shapes /\
    Forall (fun s => let '(c, h, w) := s in 0 <= c /\ 0 <= h /\ 0 <= w /\
      (axis <> 1 -> c = OC) /\ (axis <> 2 -> h = OH) /\ (axis <> 3 -> w = OW)) shapes /\
    dim OC OH OW axis = fold_right (fun s a => let '(c, h, w) := s in dim c h w axis + a) 0 shapes.
  Definition broadcast_supported (shapes : list Broadcast.shape) (cst : option (Broadcast.tensor N)) (O : Broadcast.shape) (ins : list Z) : Prop :=
    shapes <> [] /\
    Broadcast.accepted_shapes (shapes ++ match cst with Some c => [fst c] | None => [] end) O /\
    ins = map (fun s => Broadcast.sC s * Broadcast.sH s * Broadcast.sW s) shapes /\
    (forall c, cst = Some c -> Broadcast.well_shaped N c).
  Definition accepts (l : layer) (ins : list Z) : Prop :=
    act_supported (lact l) /\
    match lkind l with
    | KInput4 _ _ _ | KInput _ | KConstant _ => False
    | KActivation n => ins = [n] /\ 0 <= n
    | KDense prev n w b => ins = [prev] /\ 0 <= prev /\ 0 <= n /\ zlen w = prev * n /\ zlen b = n
    | KMatMul C OH OW K => ins = [C * OH * K; C * K * OW] /\ 0 <= C /\ 0 <= OH /\ 0 <= OW /\ 0 <= K
    | KGemm tA tB alpha beta m n k w b =>
        ins = [m * k] /\ 0 <= m /\ 0 <= n /\ 0 <= k /\ zlen w = k * n /\ zlen b = n /\ (alpha = None \/ ring_laws N)
    | KBatchNorm C H W scale mean var bias eps =>
        ins = [C * (H * W)] /\ 0 <= C /\ 0 <= H /\ 0 <= W /\ zlen scale = C /\ zlen mean = C /\ zlen var = C /\ zlen bias = C
    | KTranspose C H W p1 p2 p3 => ins = [C * H * W] /\ 0 <= C /\ 0 <= H /\ 0 <= W /\ is_perm p1 p2 p3
    | KConcat axis OC OH OW shapes => concat_supported axis OC OH OW shapes ins
    | KGather axis C H W inds =>
        ins = [C * H * W] /\ 1 <= axis <= 3 /\ 0 <= C /\ 0 <= H /\ 0 <= W /\
        (forall k, 0 <= k < zlen inds -> 0 <= nthZ 0 inds k < dim C H W axis)
    | KGatherElements axis C H W OC OH OW inds =>
        ins = [C * H * W] /\ 1 <= axis <= 3 /\ 0 <= OC /\ 0 <= OH /\ 0 <= OW /\ zlen inds = OC * OH * OW /\
        (axis <> 1 -> OC = C) /\ (axis <> 2 -> OH = H) /\ (axis <> 3 -> OW = W) /\
        (forall k, 0 <= k < zlen inds -> 0 <= nthZ 0 inds k < dim C H W axis)
    | KTile C H W rc rh rw => ins = [C * H * W] /\ 0 < C /\ 0 < H /\ 0 < W /\ 0 < rc /\ 0 < rh /\ 0 < rw
    | KFlatten cl C H W => ins = [C * H * W] /\ 0 <= C /\ 0 <= H /\ 0 <= W
    | KConv impl c w b => ins = [ic c * ih c * iw c] /\ conv_supported impl c w b
    | KMaxPool P | KAvgPool P => ins = [p_C P * p_IH P * p_IW P] /\ pool_supported P
    | KPad mode C H W P =>
        ins = [C * H * W] /\ pads_ok C H W P /\
        match mode with
        | PadConstant _ => True
        | PadEdge => idempotent (compute N (lact l))
        | PadReflect => idempotent (compute N (lact l)) /\ 2 <= C /\ 2 <= H /\ 2 <= W
        | PadWrap => idempotent (compute N (lact l)) /\ pd_front P < C /\ pd_top P < H /\ pd_left P < W
        end
    | KBroadcast k shapes cst o => broadcast_supported shapes cst o ins
    | KReduce k C H W axes noop => ins = [C * H * W] /\ 0 < C /\ 0 < H /\ 0 < W /\ reduce_supported k axes noop
    | KSoftmax C H W axis => ins = [C * H * W] /\ 0 < C /\ 0 < H /\ 0 < W /\ 1 <= axis <= 3 /\ lact l = LinearAct
    | KNearest nm p =>
        ins = [rC p * rH p * rW p] /\ resize_wf p /\ always_inside (rmode p) nm (rsh p) /\ always_inside (rmode p) nm (rsw p) /\
        (rmode p = AlignCorners -> nm = NFloor /\ rOH p <> 1 /\ rOW p <> 1)
    | KLinear p =>
        ins = [rC p * rH p * rW p] /\ 0 <= rC p /\ 0 <= rOH p /\ 0 <= rOW p /\ 1 < rH p /\ 1 < rW p /\ same_coord p
    | KCubic a p =>
        ins = [rC p * rH p * rW p] /\ ring_laws N /\ 0 <= rC p /\ 0 <= rOH p /\ 0 <= rOW p /\ 1 <= rH p /\ 1 <= rW p /\
        ~ (rH p = 1 /\ rW p = 1) /\ same_coord p
    end.

  (** Further conditions under which the Python forward function computes the
      documented function (it ignores a fused activation in several classes,
      see C21_activation_refuted and C36). *)
  Definition py_agrees (l : layer) : Prop :=
    match lkind l with
    | KTranspose _ _ _ _ _ _ | KGather _ _ _ _ _ | KGatherElements _ _ _ _ _ _ _ _ | KTile _ _ _ _ _ _
    | KReduce _ _ _ _ _ _ | KSoftmax _ _ _ _ | KNearest _ _ | KLinear _ | KCubic _ _ => lact l = LinearAct
    | KMaxPool P | KAvgPool P =>
        lact l = LinearAct /\ 0 <= p_stride P /\ p_top P = 0 /\ p_left P = 0 /\ p_bottom P = 0 /\ p_right P = 0
    | KBatchNorm _ _ _ _ _ _ _ _ => field_laws N
    | KConv _ c _ _ => mul_comm_law N /\ dilation c = 1
    | KConcat _ _ _ _ shapes => shapes <> []
    | KBroadcast k shapes cst o =>
        k <> Broadcast.BAvg /\ (k = Broadcast.BMax \/ k = Broadcast.BMin -> 2 <= zlen shapes) /\
        (BroadcastProofs.needs_full_first k = true -> zlen shapes = 1 \/ hd_error shapes = Some o) /\
        (cst <> None -> BroadcastProofs.uses_constant k = true) /\
        (cst = None -> BroadcastProofs.uses_constant k = true -> forall v, Broadcast.bop N k v (Broadcast.neutral N k) = v)
    | _ => True
    end.

  (** ** A model: graph, layers, data format. *)
  Record model := mkModel {
    md_graph : graph;
    md_layer : nat -> layer;
    md_last : bool                      (* data_format == "channels_last" *)
  }.
  Definition lk (md : model) (n : nat) : kind := lkind (md_layer md n).
  Definition md_size (md : model) (n : nat) : Z := out_size (lk md n).

  (** neural_network.py:494-504 *)
  Definition md_pre (md : model) (s : schedule) (x : list V) : list V :=
    match lk md (hd O (order s)) with
    | KInput4 C H W => if md_last md then to_first z C H W x else x
    | _ => x
    end.
  (** neural_network.py:574-579 *)
  Definition md_post (md : model) (s : schedule) (x : list V) : list V :=
    match out_channels (lk md (last (order s) O)) with
    | Some (C, H, W) => if md_last md then to_last z C H W x else x
    | None => x
    end.
  (** neural_network.py:929-949 with gen_data_format = channels_first *)
  Definition md_output_code (md : model) (s : schedule) (src : bname) : mem -> option mem :=
    match out_channels (lk md (last (order s) O)) with
    | Some (C, H, W) => if md_last md then first_to_last_c src NnOut C H W else copy_c src NnOut (md_size md (last (order s) O))
    | None => copy_c src NnOut (md_size md (last (order s) O))
    end.
  (** Conv2DStdGemm.patches_size = patches_height * patches_width
      (convolution/Conv2DGemm.py:31-35). *)
  Definition md_patches (k : kind) : option Z :=
    match k with KConv StdGemmNN c _ _ => Some (patches_height c * patches_width c) | _ => None end.

  (** The network whose [forward] is [f]. *)
  Definition net_with (f : layer -> list (list V) -> list V) (md : model) (s : schedule) : network V :=
    mkNet (md_graph md) (md_size md) (fun n => md_patches (lk md n))
      (fun n => match lk md n with KConcat _ _ _ _ _ => true | _ => false end)
      (fun n srcs out => gen_code (md_last md) (md_layer md n) srcs out)
      (fun n => f (md_layer md n)) (md_pre md s) (md_post md s) (md_output_code md s).
  Definition python_net := net_with py_forward.
  Definition documented_net := net_with meaning.

  (** ** Supported models. *)
  Record supported (md : model) (inp : nat) : Prop := {
    sp_linked : linked (md_graph md);
    sp_acyclic : acyclic (md_graph md);
    sp_no_repeat : no_repeated_input (md_graph md);
    sp_constants : forall n, In n (dnn (md_graph md)) ->
      (is_constant (md_graph md) n = true <-> exists w, lk md n = KConstant w);
    sp_constant_sources : constants_are_sources (md_graph md);
    sp_single : single_input (md_graph md) inp;
    sp_input : (exists C H W, lk md inp = KInput4 C H W /\ 0 <= C /\ 0 <= H /\ 0 <= W) \/ (exists n, lk md inp = KInput n);
    sp_layers : forall n, In n (dnn (md_graph md)) -> previous_layer (md_graph md) n <> [] ->
      accepts (md_layer md n) (map (md_size md) (previous_layer (md_graph md) n));
    (** a Flatten layer is the only reader of its operand *)
    sp_flatten : forall n p cl C H W, In n (dnn (md_graph md)) -> lk md n = KFlatten cl C H W ->
      previous_layer (md_graph md) n = [p] -> next_layer (md_graph md) p = [n]
  }.

  (** Where the Python inference agrees: every forward function does, and the
      output conversion of a channels_last model is not applied to the matrix
      returned by a Gemm layer. *)
  Definition python_supported (md : model) : Prop :=
    (forall n, In n (dnn (md_graph md)) -> py_agrees (md_layer md n)) /\
    (md_last md = true -> forall n, In n (dnn (md_graph md)) -> next_layer (md_graph md) n = [] ->
      match lk md n with KGemm _ _ _ _ _ _ _ _ _ => False | _ => True end).
End Kinds.
