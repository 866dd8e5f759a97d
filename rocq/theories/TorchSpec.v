(** * PyTorch programs: what the PyTorch documentation says of the operations of
    an exported program, with no reference to the importer or to the layers of
    acetone.  Real numbers.  Tensors have no batch dimension (the batch size is
    1); elements are stored in row-major order of the dimensions: images are
    (channels, height, width).  [tensor], [size_of], [three], [el_stretched],
    [axis_of], [all_joined] and [join_value] are in KerasSpec.v. *)
From Coq Require Import String.
From Coq Require Import ZArith List Lia Bool Reals.
Import ListNotations.
From Verif Require Import CMem Tensor Num RealInst.
From Verif Require KerasSpec.
Export KerasSpec(tensor, mkT, dims, vals, size_of).
Open Scope string_scope.
Open Scope list_scope.
Open Scope Z_scope.

(** Padding of conv2d: the same number before and after along each axis, or a
    string. *)
Inductive padding := Pads (ph pw : Z) | SameString | ValidString.
Inductive op :=
| Linear (in_features out_features : Z) (weight : list R) (bias : option (list R))     (* weight[o, i] *)
| Relu
| Clamp (min max : option R)
| Conv2d (filters channels kh kw : Z) (weight : list R) (bias : option (list R)) (sh sw : Z) (p : padding) (dh dw groups : Z)   (* weight[f, c, a, b] *)
| BatchNorm (weight bias : option (list R)) (mean var : list R) (eps : R)              (* in inference mode *)
| Add (alpha : R)
| Cat (dim : Z)
| Dropout                                                                              (* in inference mode *)
| Flatten                                                                              (* from dimension 1 *)
| MaxPool2d (kh kw sh sw ph pw dh dw : Z) (ceil_mode : bool)
| AdaptiveAvgPool2d (oh ow : Z)
| LeakyRelu (slope : R)
| Hardtanh (min max : R)
| Sigmoid
| Softmax.                                                                             (* along the last dimension *)

(** ** Windows of length [k], stride [s], dilation [d] along an axis of length [n]. *)
Definition pad_before (p : padding) (vertical : bool) (k d : Z) : Z :=
  match p with Pads ph pw => if vertical then ph else pw | SameString => d * (k - 1) / 2 | ValidString => 0 end.
Definition pad_total (p : padding) (vertical : bool) (k d : Z) : Z :=
  match p with Pads ph pw => 2 * (if vertical then ph else pw) | SameString => d * (k - 1) | ValidString => 0 end.
(** n + padding - d * (k - 1) - 1: the last place where a window may start. *)
Definition last_start (n total k d : Z) : Z := n + total - d * (k - 1) - 1.
Definition count (n total k s d : Z) : Z := last_start n total k d / s + 1.
(** With ceil_mode, windows that start beyond the image and its left padding are dropped. *)
Definition pool_count (ceil_mode : bool) (n p k s d : Z) : Z :=
  if ceil_mode then let o := - (- last_start n (2 * p) k d / s) + 1 in if n + p <=? (o - 1) * s then o - 1 else o
  else count n (2 * p) k s d.
Definition windowed (n total k s d : Z) : bool := (1 <=? k) && (1 <=? s) && (1 <=? d) && (0 <=? total) && (0 <=? last_start n total k d).

(** ** Dimensions of the result. *)
Definition out_dims (o : op) (ins : list (list Z)) : option (list Z) :=
  match o, ins with
  | Linear i n _ _, [ds] => match rev ds with [] => None | d :: r => if d =? i then Some (rev r ++ [n]) else None end
  | Conv2d filters channels kh kw _ _ sh sw p dh dw groups, [[C; H; W]] =>
      if (channels * groups =? C) && windowed H (pad_total p true kh dh) kh sh dh && windowed W (pad_total p false kw dw) kw sw dw
      then Some [filters; count H (pad_total p true kh dh) kh sh dh; count W (pad_total p false kw dw) kw sw dw] else None
  | MaxPool2d kh kw sh sw ph pw dh dw ceil, [[C; H; W]] =>
      if windowed H (2 * ph) kh sh dh && windowed W (2 * pw) kw sw dw && (2 * ph <=? kh) && (2 * pw <=? kw)
      then Some [C; pool_count ceil H ph kh sh dh; pool_count ceil W pw kw sw dw] else None
  | AdaptiveAvgPool2d oh ow, [[C; H; W]] => if (1 <=? oh) && (1 <=? ow) then Some [C; oh; ow] else None
  | Add _, [s; t] => KerasSpec.common_dims s t
  | Cat dim, s :: r => k <- KerasSpec.axis_of dim (zlen s) ;; KerasSpec.all_joined (Z.to_nat k) s r
  | Flatten, [ds] => Some [size_of ds]
  | (Relu | Clamp _ _ | BatchNorm _ _ _ _ _ | Dropout | LeakyRelu _ | Hardtanh _ _ | Sigmoid | Softmax), [ds] => Some ds
  | _, _ => None
  end.

(** ** Elements of the result. *)
Definition or_zero (b : option (list R)) (f : Z) : R := match b with Some l => nthZ 0%R l f | None => 0%R end.
Definition or_one (b : option (list R)) (f : Z) : R := match b with Some l => nthZ 0%R l f | None => 1%R end.
Definition linear_value (i n : Z) (weight : list R) (bias : option (list R)) (t : tensor) : list R :=
  tab (size_of (dims t) / i * n) (fun k =>
    nsum Rnum i (fun m => nthZ 0%R (vals t) (k / n * i + m) * nthZ 0%R weight (k mod n * i + m)) + or_zero bias (k mod n))%R.
(** Element (c, i, j) of an image, zero outside. *)
Definition pixel (H W : Z) (x : list R) (c i j : Z) : R :=
  if (0 <=? i) && (i <? H) && (0 <=? j) && (j <? W) then at3 0%R H W x c i j else 0%R.
Definition conv_value (filters channels kh kw : Z) (weight : list R) (bias : option (list R)) (sh sw top left dh dw groups OH OW H W : Z) (x : list R) : list R :=
  tab3 filters OH OW (fun f i j =>
    nsum Rnum channels (fun c => nsum Rnum kh (fun a => nsum Rnum kw (fun b =>
      pixel H W x (f / (filters / groups) * channels + c) (i * sh + a * dh - top) (j * sw + b * dw - left) *
      nthZ 0%R weight (((f * channels + c) * kh + a) * kw + b)))) + or_zero bias f)%R.
(** The elements below a pooling window; padding is not an element. *)
Definition upto (n : Z) : list Z := tab n (fun k => k).
Definition below (H W : Z) (x : list R) (kh kw sh sw top left dh dw c i j : Z) : list R :=
  flat_map (fun a => flat_map (fun b =>
    let r := i * sh + a * dh - top in let k := j * sw + b * dw - left in
    if (0 <=? r) && (r <? H) && (0 <=? k) && (k <? W) then [at3 0%R H W x c r k] else []) (upto kw)) (upto kh).
Definition maximum (l : list R) : R := match l with [] => 0%R | v :: r => fold_left Rmax r v end.
Definition average (l : list R) : R := (fold_right Rplus 0 l / IZR (zlen l))%R.
(** Cell i of n cells over a length m: from floor(i m / n) to ceil((i + 1) m / n). *)
Definition cell (m n i : Z) : list Z := filter (fun k => (i * m / n <=? k) && (k <? - (- ((i + 1) * m) / n))) (upto m).
Definition adaptive_value (oh ow C H W : Z) (x : list R) : list R :=
  tab3 C oh ow (fun c i j => average (flat_map (fun a => map (fun b => at3 0%R H W x c a b) (cell W ow j)) (cell H oh i))).
Definition clamp (min max : option R) (v : R) : R :=
  let u := match min with Some m => Rmax m v | None => v end in match max with Some m => Rmin m u | None => u end.
(** Statistics per channel, the first dimension. *)
Definition normalised (weight bias : option (list R)) (mean var : list R) (eps : R) (t : tensor) : list R :=
  let inner := size_of (skipn 1 (dims t)) in
  tab (zlen (vals t)) (fun k => let c := k / inner in
    ((nthZ 0 (vals t) k - nthZ 0 mean c) / sqrt (nthZ 0 var c + eps) * or_one weight c + or_zero bias c)%R).
Definition sum_value (alpha : R) (s t : tensor) (out : list Z) : list R :=
  let '(A, B, C) := KerasSpec.three out in
  tab3 A B C (fun i j k => KerasSpec.el_stretched s i j k + alpha * KerasSpec.el_stretched t i j k)%R.
Definition result (o : op) (ts : list tensor) (out : list Z) : list R :=
  match o, ts with
  | Linear i n w b, [t] => linear_value i n w b t
  | Conv2d filters channels kh kw w b sh sw p dh dw groups, [t] =>
      match dims t, out with
      | [_; H; W], [_; OH; OW] =>
          conv_value filters channels kh kw w b sh sw (pad_before p true kh dh) (pad_before p false kw dw) dh dw groups OH OW H W (vals t)
      | _, _ => []
      end
  | MaxPool2d kh kw sh sw ph pw dh dw _, [t] =>
      match dims t, out with
      | [C; H; W], [_; OH; OW] => tab3 C OH OW (fun c i j => maximum (below H W (vals t) kh kw sh sw ph pw dh dw c i j))
      | _, _ => []
      end
  | AdaptiveAvgPool2d oh ow, [t] => match dims t with [C; H; W] => adaptive_value oh ow C H W (vals t) | _ => [] end
  | Add alpha, [s; t] => sum_value alpha s t out
  | Cat dim, _ => KerasSpec.join_value dim ts out
  | (Flatten | Dropout), [t] => vals t
  | Relu, [t] => map (Rmax 0) (vals t)
  | Clamp lo hi, [t] => map (clamp lo hi) (vals t)
  | BatchNorm w b mean var eps, [t] => normalised w b mean var eps t
  | LeakyRelu s, [t] => map (fun v => if Rlt_dec v 0 then s * v else v)%R (vals t)
  | Hardtanh lo hi, [t] => map (clamp (Some lo) (Some hi)) (vals t)
  | Sigmoid, [t] => map (fun v => 1 / (1 + exp (- v)))%R (vals t)
  | Softmax, [t] => KerasSpec.softmaxed (dims t) (vals t)
  | _, _ => []
  end.
Definition apply (o : op) (ts : list tensor) : option tensor :=
  ds <- out_dims o (map dims ts) ;; Some (mkT ds (result o ts ds)).

(** ** Programs.  The calls after the placeholder, in the order of the graph,
    with the names of the nodes they read; the program returns the value of the
    last one.  [n_given]: how many positional arguments the call has (trailing
    arguments with their default value may be omitted). *)
Record node := mkNode { n_name : string; n_op : op; n_inputs : list string; n_given : nat }.
(** [p_channels_last]: the example input's strides are those of
    torch.channels_last (also the case when it has one channel or one pixel). *)
Record program := mkProgram { p_input : string; p_shape : list Z; p_channels_last : bool; p_nodes : list node }.
Definition p_output (m : program) : string := n_name (last (p_nodes m) (mkNode (p_input m) Dropout [] 0)).
(** [env]: the tensors computed by the nodes on the input [x]. *)
Definition runs (m : program) (x : list R) (env : string -> tensor) : Prop :=
  env (p_input m) = mkT (p_shape m) x /\
  forall n, In n (p_nodes m) -> apply (n_op n) (map env (n_inputs n)) = Some (env (n_name n)).
(** Nodes have distinct names and read earlier nodes; every node but the last is
    read (torch.export removes dead code). *)
Record well_formed (m : program) : Prop := {
  wf_names : NoDup (p_input m :: map n_name (p_nodes m));
  wf_order : forall before n after, p_nodes m = before ++ n :: after ->
    n_inputs n <> [] /\ incl (n_inputs n) (p_input m :: map n_name before);
  wf_read : forall nm, In nm (p_input m :: map n_name (p_nodes m)) -> nm <> p_output m ->
    exists n, In n (p_nodes m) /\ In nm (n_inputs n);
  wf_some : p_nodes m <> []
}.

(** ** The calls as torch.export writes them: name of the target and positional
    arguments.  Parameters are get_attr nodes. *)
Inductive arg := ANode (nm : string) | ANodes (nms : list string) | AParam (ds : list Z) (v : list R)
| AInt (k : Z) | AInts (l : list Z) | AFloat (r : R) | ABool (b : bool) | AString (s : string) | ANone.
Definition target (o : op) : string :=
  match o with
  | Linear _ _ _ _ => "linear.default"
  | Relu => "relu.default"
  | Clamp _ _ => "clamp.default"
  | Conv2d _ _ _ _ _ _ _ _ (Pads _ _) _ _ _ => "conv2d.default"
  | Conv2d _ _ _ _ _ _ _ _ _ _ _ _ => "conv2d.padding"
  | BatchNorm _ _ _ _ _ => "batch_norm.default"
  | Add _ => "add.Tensor"
  | Cat _ => "cat.default"
  | Dropout => "dropout.default"
  | Flatten => "flatten.using_ints"
  | MaxPool2d _ _ _ _ _ _ _ _ _ => "max_pool2d.default"
  | AdaptiveAvgPool2d _ _ => "adaptive_avg_pool2d.default"
  | LeakyRelu _ => "leaky_relu.default"
  | Hardtanh _ _ => "hardtanh.default"
  | Sigmoid => "sigmoid.default"
  | Softmax => "softmax.int"
  end.
Definition param (ds : list Z) (v : option (list R)) : arg := match v with Some l => AParam ds l | None => ANone end.
Definition number (v : option R) : arg := match v with Some r => AFloat r | None => ANone end.
(** All the positional arguments; alpha of add is a keyword argument. *)
Definition arguments (o : op) (ins : list string) : list arg :=
  match o with
  | Cat dim => [ANodes ins; AInt dim]
  | _ => map ANode ins ++
    match o with
    | Linear i n w b => [AParam [n; i] w; param [n] b]
    | Clamp lo hi => [number lo; number hi]
    | Conv2d f c kh kw w b sh sw p dh dw g =>
        [AParam [f; c; kh; kw] w; param [f] b; AInts [sh; sw];
         match p with Pads ph pw => AInts [ph; pw] | SameString => AString "same" | ValidString => AString "valid" end;
         AInts [dh; dw]; AInt g]
    | BatchNorm w b mean var eps =>
        let c := zlen mean in
        [param [c] w; param [c] b; AParam [c] mean; AParam [c] var; ABool false; AFloat (1 / 10)%R; AFloat eps; ABool true]
    | Dropout => [AFloat (1 / 2)%R; ABool false]
    | Flatten => [AInt 1]
    | MaxPool2d kh kw sh sw ph pw dh dw ceil => [AInts [kh; kw]; AInts [sh; sw]; AInts [ph; pw]; AInts [dh; dw]; ABool ceil]
    | AdaptiveAvgPool2d oh ow => [AInts [oh; ow]]
    | LeakyRelu s => [AFloat s]
    | Hardtanh lo hi => [AFloat lo; AFloat hi]
    | Softmax => [AInt (-1)]
    | _ => []
    end
  end.
(** The omitted arguments have their default values. *)
Definition defaults_omitted (o : op) (given : nat) : Prop :=
  match o with
  | Linear _ _ _ b => ((given < 3)%nat -> b = None) /\ (2 <= given)%nat
  | Clamp lo hi => ((given < 3)%nat -> hi = None) /\ ((given < 2)%nat -> lo = None) /\ (1 <= given)%nat
  | Conv2d _ _ _ _ _ b sh sw p dh dw g =>
      (2 <= given)%nat /\ ((given < 3)%nat -> b = None) /\ ((given < 4)%nat -> sh = 1 /\ sw = 1) /\ ((given < 5)%nat -> p = Pads 0 0) /\
      ((given < 6)%nat -> dh = 1 /\ dw = 1) /\ ((given < 7)%nat -> g = 1)
  | MaxPool2d kh kw sh sw ph pw dh dw ceil =>
      (2 <= given)%nat /\ ((given < 3)%nat -> sh = kh /\ sw = kw) /\ ((given < 4)%nat -> ph = 0 /\ pw = 0) /\ ((given < 5)%nat -> dh = 1 /\ dw = 1) /\
      ((given < 6)%nat -> ceil = false)
  | Cat dim => (1 <= given)%nat /\ ((given < 2)%nat -> dim = 0)
  | BatchNorm _ _ _ _ _ => (9 <= given)%nat
  | Add _ => (2 <= given)%nat
  | _ => (1 <= given)%nat
  end.
Record call := mkCall { c_name : string; c_target : string; c_args : list arg }.
Definition exported (n : node) : call := mkCall (n_name n) (target (n_op n)) (firstn (n_given n) (arguments (n_op n) (n_inputs n))).

(** ** Order of the elements in memory: (height, width, channels) for the images
    of a channels_last program. *)
Definition in_memory (m : program) (ds : list Z) (v : list R) : list R :=
  match ds with
  | [C; H; W] => if p_channels_last m then tab3 H W C (fun i j c => at3 0%R H W v c i j) else v
  | _ => v
  end.
