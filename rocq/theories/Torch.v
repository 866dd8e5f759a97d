(** * The PyTorch importer: src/acetone_nnet/importers/PYTORCH_importer/parse_pytorch.py
    (line numbers below are in this file unless another file is named).
    [None] is an exception.  The batch size is 1: shapes are given without it.
    The prints and the attribute original_name are not modelled. *)
From Coq Require Import String.
From Coq Require Import ZArith List Lia Bool Reals QArith.
Import ListNotations.
From Verif Require Import CMem Tensor Num RealInst Padding Conv Pooling Graph LayerKinds Net Import.
From Verif Require Activation Broadcast Movement.
From Verif Require Import TorchSpec.
Open Scope string_scope.
Open Scope list_scope.
Open Scope Z_scope.

(** [sub in s] *)
Definition contains (sub s : string) : bool := match String.index 0 sub s with Some _ => true | None => false end.

(** self.layerdic: for each name, the layer and the shape of the value; in
    insertion order.  self.idx is the number of layers; the layers are kept by
    idx, with their links. *)
Definition layerdic := list (string * (nat * list Z)).
Fixpoint dlookup (d : layerdic) (nm : string) : option (nat * list Z) :=
  match d with [] => None | (k, v) :: r => if String.eqb k nm then Some v else dlookup r nm end.
Fixpoint dassign (d : layerdic) (nm : string) (v : nat * list Z) : layerdic :=
  match d with [] => [(nm, v)] | (k, w) :: r => if String.eqb k nm then (nm, v) :: r else (k, w) :: dassign r nm v end.
Record tstate := mkTS { ts_count : nat; ts_dic : layerdic; ts_links : links; ts_layer : nat -> layer Rnum }.
Definition update {A} (f : nat -> A) (k : nat) (v : A) (i : nat) : A := if Nat.eqb i k then v else f i.

(** self.layerdic[arg.name]: KeyError for a parameter, AttributeError for a
    number (or a list). *)
Definition held (st : tstate) (a : arg) : option (nat * list Z) := match a with ANode nm => dlookup (ts_dic st) nm | _ => None end.
(** The lines `layerdic[arg.name][0].next_layer.append(this_layer);
    this_layer.previous_layer.append(layerdic[arg.name][0])` for each operand,
    then `layerdic[node.name] = (this_layer, shape); idx += 1`. *)
Fixpoint connect_all (ps : list nat) (child : nat) (l : links) : links :=
  match ps with [] => l | p :: r => connect_all r child (connect p child l) end.
Definition add_layer (st : tstate) (nm : string) (out : list Z) (ps : list nat) (l : layer Rnum) : tstate :=
  mkTS (S (ts_count st)) (dassign (ts_dic st) nm (ts_count st, out)) (connect_all ps (ts_count st) (ts_links st))
    (update (ts_layer st) (ts_count st) l).
(** `layerdic[node.name] = layerdic[node.args[0].name]` *)
Definition alias (st : tstate) (nm : string) (v : nat * list Z) : tstate :=
  mkTS (ts_count st) (dassign (ts_dic st) nm v) (ts_links st) (ts_layer st).
Definition set_layer (st : tstate) (k : nat) (l : layer Rnum) : tstate :=
  mkTS (ts_count st) (ts_dic st) (ts_links st) (update (ts_layer st) k l).
(** shape[1], shape[2], shape[3] in the constructors; IndexError otherwise. *)
Definition chw (ds : list Z) : option (Z * Z * Z) := match ds with c :: h :: w :: _ => Some (c, h, w) | _ => None end.
Definition plain (k : kind Rnum) : layer Rnum := mkLayer Rnum k Activation.LinearAct.

(** 119-132 visit_placeholder and input/Input.py:40-75 *)
Definition import_input (ds : list Z) : layer Rnum :=
  plain (match ds with [c; h; w] => KInput4 Rnum c h w | _ => KInput Rnum (size_of ds) end).

(** 138-150 and dense/Dense.py:36-90; `.numpy().T`; the number of inputs is the
    size of the previous layer. *)
Definition transposed (n i : Z) (w : list R) : list R := tab (i * n) (fun k => nthZ 0%R w (k mod n * i + k / n)).
Definition import_linear (args : list arg) (previous : Z) (out : list Z) : option (layer Rnum) :=
  match args with
  | _ :: AParam [n; i] w :: AParam [m] b :: _ =>
      if (size_of out =? n) && (size_of out =? m) then Some (plain (KDense Rnum previous (size_of out) (transposed n i w) b)) else None
  | _ => None
  end.

(** 160-190 and convolution/Conv2D.py:70-103, 155-225.  strides[0] and
    dilation[0] only; kernel_h and kernel_w are the last dimension of the
    weights, whose shape is then checked.  A padding given as a string is
    concatenated with itself, which is no string that compute_padding knows.
    Grouped convolutions (group <> 1) are not modelled: [None]. *)
Definition conv_stride (args : list arg) : option Z :=
  match nth_error args 3 with None => Some 1 | Some (AInts (s :: _)) => Some s | Some _ => None end.
Definition conv_padding (args : list arg) : option Padding.padding :=
  match nth_error args 4 with
  | None => Some (Explicit 0 0 0 0)
  | Some (AInts [ph; pw]) => Some (Explicit ph pw ph pw)
  | Some (AString _) => Some OtherString
  | Some _ => None
  end.
Definition conv_dilation (args : list arg) : option Z :=
  match nth_error args 5 with None => Some 1 | Some (AInts (d :: _)) => Some d | Some _ => None end.
Definition conv_group (args : list arg) : option Z :=
  match nth_error args 6 with None => Some 1 | Some (AInt g) => Some g | Some _ => None end.
Definition import_conv (impl : conv_impl) (args : list arg) (ds out : list Z) : option (layer Rnum) :=
  stride <- conv_stride args ;; pad <- conv_padding args ;; dilation <- conv_dilation args ;; group <- conv_group args ;;
  match args with
  | _ :: AParam [f; c; kh; k] w :: bias :: _ =>
      i3 <- chw ds ;; o3 <- chw out ;;
      let '(C, H, W) := i3 in let '(F, OH, OW) := o3 in
      b <- match bias with AParam _ b => Some b | ANone => Some (tab F (fun _ => 0%R)) | _ => None end ;;
      let '(pright, pleft, pbottom, ptop) := compute_padding pad H W k k stride dilation in
      if (size_of out =? F * OH * OW) && (f =? F) && (c =? C / group) && (kh =? k) && (zlen b =? F) &&
         (OH =? conv_output_size H ptop pbottom k stride dilation) && (OW =? conv_output_size W pleft pright k stride dilation) && (group =? 1)
      then Some (plain (KConv Rnum impl (mkConv C H W F OH OW k k stride dilation ptop pleft pbottom pright) w b)) else None
  | _ => None
  end.

(** 191-205: the weights and biases of the operand's layer are replaced;
    AttributeError when it has none.  Vectors of other lengths than the number
    of filters: numpy raises, or broadcasts when a length is 1 (not modelled). *)
Definition rsqrt (v : R) : R := (1 / sqrt v)%R.
Definition scale_at (bn_w bn_rv : list R) (eps : R) (f : Z) : R := (nthZ 0 bn_w f * rsqrt (nthZ 0 bn_rv f + eps))%R.
Definition fused_biases (n : Z) (bn_w bn_b bn_rm bn_rv : list R) (eps : R) (b : list R) : list R :=
  tab n (fun f => (nthZ 0 b f - nthZ 0 bn_rm f) * rsqrt (nthZ 0 bn_rv f + eps) * nthZ 0 bn_w f + nthZ 0 bn_b f)%R.
(** Element k of the weights, whose first dimension has [n] entries of size [inner]. *)
Definition fused_weights (inner : Z) (bn_w bn_rv : list R) (eps : R) (w : list R) : list R :=
  tab (zlen w) (fun k => nthZ 0 w k * scale_at bn_w bn_rv eps (k / inner))%R.
Definition fuse_batch_norm (args : list arg) (l : layer Rnum) : option (layer Rnum) :=
  match args with
  | _ :: AParam _ bn_w :: AParam _ bn_b :: AParam _ bn_rm :: AParam _ bn_rv :: _ :: _ :: AFloat eps :: _ =>
      match lkind Rnum l with
      | KConv _ impl c w b =>
          if (zlen bn_w =? nf c) && (zlen bn_b =? nf c) && (zlen bn_rm =? nf c) && (zlen bn_rv =? nf c)
          then Some (mkLayer Rnum (KConv Rnum impl c (fused_weights (ic c * kh c * kw c) bn_w bn_rv eps w) (fused_biases (nf c) bn_w bn_b bn_rm bn_rv eps b)) (lact Rnum l))
          else None
      | KDense _ i n w b =>
          (* the first dimension of the weights of a Dense layer is its number of inputs *)
          if (i =? n) && (zlen bn_w =? n) && (zlen bn_b =? n) && (zlen bn_rm =? n) && (zlen bn_rv =? n)
          then Some (mkLayer Rnum (KDense Rnum i n (fused_weights n bn_w bn_rv eps w) (fused_biases n bn_w bn_b bn_rm bn_rv eps b)) (lact Rnum l))
          else None
      | _ => None
      end
  | _ => None
  end.

(** 206-222 and broadcast/Broadcast.py:88-127 *)
Definition max_of (l : list Z) : Z := match l with [] => 0 | v :: r => fold_left Z.max r v end.
Definition mk_shape (t : Z * Z * Z) : Broadcast.shape := let '(c, h, w) := t in Broadcast.mkShape c h w.
Definition import_add (ins : list (list Z)) (out : list Z) : option (layer Rnum) :=
  o3 <- chw out ;; let '(OC, OH, OW) := o3 in
  i3s <- all_some (map chw ins) ;;
  if (size_of out =? OC * OH * OW) &&
     (OC =? max_of (map (fun t => fst (fst t)) i3s)) && (OH =? max_of (map (fun t => snd (fst t)) i3s)) && (OW =? max_of (map snd i3s)) &&
     forallb (fun t => let '(c, h, w) := t in ((c =? 1) || (c =? OC)) && ((h =? 1) || (h =? OH)) && ((w =? 1) || (w =? OW))) i3s
  then Some (plain (KBroadcast Rnum Broadcast.BAdd (map mk_shape i3s) None (Broadcast.mkShape OC OH OW))) else None.

(** 223-237 and concatenate/Concatenate.py:36-117 *)
Definition import_cat (axis : Z) (ins : list (list Z)) (out : list Z) : option (layer Rnum) :=
  o3 <- chw out ;; let '(OC, OH, OW) := o3 in
  i3s <- all_some (map chw ins) ;;
  if (size_of out =? OC * OH * OW) && (1 <=? axis) && (axis <=? 3) &&
     forallb (fun t => let '(c, h, w) := t in ((axis =? 1) || (c =? OC)) && ((axis =? 2) || (h =? OH)) && ((axis =? 3) || (w =? OW))) i3s &&
     (Movement.dim OC OH OW axis =? fold_right (fun t s => let '(c, h, w) := t in Movement.dim c h w axis + s) 0 i3s)
  then Some (plain (KConcat Rnum axis OC OH OW i3s)) else None.

(** pooling/Pooling2D.py:49-77, 119-134 *)
Definition pool_of (k s : Z) (pad : Padding.padding) (ds out : list Z) : option pool :=
  i3 <- chw ds ;; o3 <- chw out ;;
  let '(C, H, W) := i3 in let '(_, OH, OW) := o3 in
  let '(pright, pleft, pbottom, ptop) := compute_padding pad H W k k s 1 in
  if (size_of out =? C * OH * OW) && (OH =? (H + pbottom + ptop - k) / s + 1) && (OW =? (W + pleft + pright - k) / s + 1)
  then Some (mkPool C H W OH OW k s ptop pleft pbottom pright) else None.
(** 242-262: kernel_size[0] and stride[0] only; the dilation is read and not
    used, ceil_mode is not read. *)
Definition first_or_one (args : list arg) (k : nat) : option Z :=
  match nth_error args k with None => Some 1 | Some (AInts (v :: _)) => Some v | Some _ => None end.
Definition import_max_pool (args : list arg) (ds out : list Z) : option (layer Rnum) :=
  k <- first_or_one args 1 ;; s <- first_or_one args 2 ;;
  pad <- match nth_error args 3 with None => Some (Explicit 0 0 0 0) | Some (AInts [ph; pw]) => Some (Explicit ph pw ph pw) | Some _ => None end ;;
  d <- first_or_one args 4 ;;
  P <- pool_of k s pad ds out ;; Some (plain (KMaxPool Rnum P)).
(** 263-279: the pool size is the last dimension of the operand. *)
Definition import_adaptive (ds out : list Z) : option (layer Rnum) :=
  P <- pool_of (last ds 1) 1 (Explicit 0 0 0 0) ds out ;; Some (plain (KAvgPool Rnum P)).

(** 152-153, 155-158: activation_function of the operand's layer *)
Definition with_activation (l : layer Rnum) (a : Activation.activation Rnum) : layer Rnum := mkLayer Rnum (lkind Rnum l) a.

(** 135-279 visit_call_function; [out]: node.meta['val'].shape. *)
Definition visit (impl : conv_impl) (st : tstate) (c : call) (out : list Z) : option tstate :=
  let args := c_args c in
  if contains "linear" (c_target c) then
    x <- nth_error args 0 ;; v <- held st x ;;
    l <- import_linear args (out_size Rnum (lkind Rnum (ts_layer st (fst v)))) out ;;
    Some (add_layer st (c_name c) out [fst v] l)
  else if contains "relu" (c_target c) then
    x <- nth_error args 0 ;; v <- held st x ;;
    Some (alias (set_layer st (fst v) (with_activation (ts_layer st (fst v)) Activation.ReLu)) (c_name c) v)
  else if contains "clamp" (c_target c) then
    x <- nth_error args 0 ;; v <- held st x ;;
    match args with
    | _ :: AFloat lo :: AFloat hi :: _ =>
        if Rlt_dec hi lo then None
        else Some (alias (set_layer st (fst v) (with_activation (ts_layer st (fst v)) (@Activation.Clip Rnum hi lo))) (c_name c) v)
    | _ => None
    end
  else if contains "conv2d" (c_target c) then
    x <- nth_error args 0 ;; v <- held st x ;;
    l <- import_conv impl args (snd v) out ;;
    Some (add_layer st (c_name c) out [fst v] l)
  else if contains "batch_norm" (c_target c) then
    x <- nth_error args 0 ;; v <- held st x ;;
    l <- fuse_batch_norm args (ts_layer st (fst v)) ;;
    Some (alias (set_layer st (fst v) l) (c_name c) v)
  else if contains "add" (c_target c) then
    x <- nth_error args 0 ;;
    match x with
    | ANode _ | AParam _ _ =>
        match held st x with
        | None => Some st                                             (* bypassed *)
        | Some _ =>
            vs <- all_some (map (held st) args) ;;
            l <- import_add (map snd vs) out ;;
            Some (add_layer st (c_name c) out (map fst vs) l)
        end
    | _ => None
    end
  else if contains "cat" (c_target c) then
    match args with
    | ANodes nms :: AInt axis :: _ =>
        vs <- all_some (map (fun nm => held st (ANode nm)) nms) ;;
        l <- import_cat axis (map snd vs) out ;;
        Some (add_layer st (c_name c) out (map fst vs) l)
    | _ => None
    end
  else if contains "dropout" (c_target c) || contains "flatten" (c_target c) then
    x <- nth_error args 0 ;; v <- held st x ;; Some (alias st (c_name c) v)
  else if contains "max_pool2d" (c_target c) then
    x <- nth_error args 0 ;; v <- held st x ;;
    l <- import_max_pool args (snd v) out ;;
    Some (add_layer st (c_name c) out [fst v] l)
  else if contains "adaptive_avg_pool2d" (c_target c) then
    x <- nth_error args 0 ;; v <- held st x ;;
    l <- import_adaptive (snd v) out ;;
    Some (add_layer st (c_name c) out [fst v] l)
  else Some st.

(** The shapes in node.meta are those PyTorch infers. *)
Fixpoint shape_of (env : list (string * list Z)) (nm : string) : option (list Z) :=
  match env with [] => None | (k, ds) :: r => if String.eqb nm k then Some ds else shape_of r nm end.
Fixpoint visit_all (impl : conv_impl) (env : list (string * list Z)) (st : tstate) (ns : list node) : option tstate :=
  match ns with
  | [] => Some st
  | n :: r =>
      ins <- all_some (map (shape_of env) (n_inputs n)) ;;
      out <- out_dims (n_op n) ins ;;
      st' <- visit impl st (exported n) out ;;
      visit_all impl ((n_name n, out) :: env) st' r
  end.
Definition first_state (m : program) : tstate :=
  mkTS 1 [(p_input m, (O, p_shape m))] no_links (fun _ => import_input (p_shape m)).

(** 298-304 load_pytorch.  tri_topo receives one entry per name: a layer with
    several names is there several times.  The result lists each layer once. *)
Definition named_layers (st : tstate) : list nat := map (fun e => fst (snd e)) (ts_dic st).
Definition graph_of (st : tstate) (l : list nat) : graph := mkGraph l (lprev (ts_links st)) (lnext (ts_links st)) (fun _ => false).
Definition load_pytorch (impl : conv_impl) (m : program) : option (model Rnum * schedule) :=
  st <- visit_all impl [(p_input m, p_shape m)] (first_state m) (p_nodes m) ;;
  s <- tri_topo (graph_of st (named_layers st)) ;;
  Some (mkModel Rnum (graph_of st (seq 0 (ts_count st))) (ts_layer st) (p_channels_last m), s).
