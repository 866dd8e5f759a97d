(** * Programs generated in channels_last order.
    CodeGenerator(gen_data_format="channels_last"): the input is converted to
    channels_last, the layers for which a channels_last implementation is selected
    (convolutions "direct_block", poolings "channels_last") work in that order, all
    the other layers emit the same code as otherwise, and the output is converted.
    src/acetone_nnet/generator/neural_network.py is cited as NN. *)
From Coq Require Import ZArith List Lia Bool QArith.
Import ListNotations.
From Verif Require Import CMem Tensor Num Activation Movement MovementProofs Conv ConvHWC Pooling Graph GraphSpec Net LayerKinds.
From Verif Require Broadcast.
Open Scope Z_scope.

(** The implementation selected for a layer (NN:325-355).  A layer class without
    channels_last implementation keeps its channels-first code. *)
Inductive himpl {V : Type} :=
| Unchanged
| DirectBlock                        (* Conv2Ddirect_block, group = 1 *)
| DepthwiseBlock (w : list V)        (* Conv2Ddirect_block, group = input_channels = nb_filters, weights (K,1,KH,KW) *)
| PoolLast.                          (* version "channels_last" *)
Arguments himpl : clear implicits.

Section Hwc.
  Context (N : num) (ninf : T N) (q : Q -> T N) (half : T N).   (* half: the literal 0.5 *)
  Notation V := (T N).
  Notation mem := (mem V).
  Notation z := (n0 N).

  (** Conv2Ddirect_block.py:72: block_k; weights.shape[-1] is kernel_w. *)
  Definition block_k (c : conv_params) : Z := if 1 <? kw c then Z.min 64 (nf c) else Z.min 512 (nf c).
  (** Conv2Ddirect_block.py:108-118: the depth-wise template when group = nb_filters =
      input_channels, the point-wise one never (self.padding is a list or a string,
      never 1), then Winograd, then the direct one. *)
  Definition uses_winograd (c : conv_params) : bool := (kh c =? 3) && (kw c =? 3) && (strides c =? 1) && (iw c mod 2 =? 0).
  (** Conv2Ddirect_block.py:91-92 (assertions) and :40 (np.reshape raises when the
      filters are not a multiple of the block).  The layout of the parameters is
      that of parameters.dat (see C53). *)
  Definition direct_code (c : conv_params) (w b : list V) (act : V -> V) (src out : bname) : mem -> option mem :=
    if (pl c =? pt c) && (dilation c =? 1) && (nf c mod block_k c =? 0)
    then if (nf c =? 1) && (ic c =? 1) then depthwise_c N src out c (dw_layout N c w) b act
         else if uses_winograd c then winograd_c N src out c (block_k c) (wino_layout N half c (block_k c) w) b act
         else direct_block_c N src out c (block_k c) (block_layout N c (block_k c) w) b act
    else fun _ => None.
  Definition depthwise_code (c : conv_params) (w b : list V) (act : V -> V) (src out : bname) : mem -> option mem :=
    if (pl c =? pt c) && (dilation c =? 1) && (nf c =? ic c) then depthwise_c N src out c (dw_layout N c w) b act else fun _ => None.

  (** generate_inference_code_layer.  Input: InputDefault.py:50-59.  A channels_last
      pooling with an activation other than linear names an undeclared variable
      (MaxPooling2DDefault.py:82, AveragePooling2DDefault.py:83): no program. *)
  Definition hwc_code (md : model N) (impl : nat -> himpl V) (n : nat) (srcs : list bname) (out : bname) : mem -> option mem :=
    let l := md_layer N md n in
    match impl n, lkind N l, srcs with
    | Unchanged, KInput4 _ C H W, [s] => if md_last N md then copy_c s out (C * H * W) else first_to_last_c s out C H W
    | Unchanged, _, _ => gen_code N ninf q (md_last N md) l srcs out
    | DirectBlock, KConv _ _ c w b, [s] => direct_code c w b (c_act N (lact N l)) s out
    | DepthwiseBlock w, KConv _ _ c _ b, [s] => depthwise_code c w b (c_act N (lact N l)) s out
    | PoolLast, KMaxPool _ P, [s] => match lact N l with LinearAct => hwc_max N ninf P s out | _ => fun _ => None end
    | PoolLast, KAvgPool _ P, [s] => match lact N l with LinearAct => hwc_avg N P s out | _ => fun _ => None end
    | _, _, _ => fun _ => None
    end.

  (** NN:929-943 with gen_data_format = channels_last *)
  Definition hwc_output_code (md : model N) (s : schedule) (src : bname) : mem -> option mem :=
    match out_channels N (lk N md (last (order s) O)) with
    | Some (C, H, W) => if md_last N md then copy_c src NnOut (md_size N md (last (order s) O)) else last_to_first_c src NnOut C H W
    | None => copy_c src NnOut (md_size N md (last (order s) O))
    end.

  (** The program.  Only its code and sizes matter: [inference] and [declared] do
      not look at the Python side. *)
  Definition hwc_net (md : model N) (impl : nat -> himpl V) (s : schedule) : network V :=
    mkNet (md_graph N md) (md_size N md) (fun n => md_patches N (lk N md n))
      (fun n => match lk N md n with KConcat _ _ _ _ _ _ => true | _ => false end)
      (hwc_code md impl) (fun n => py_forward N ninf q (md_layer N md n)) (md_pre N md s) (md_post N md s) (hwc_output_code md s).

  (** ** Which models.  [shape n]: the dimensions (channels, rows, columns) of the
      tensor of layer [n], [None] for a vector.  A tensor is [flat] when its two
      orders are the same. *)
  Definition flat (sh : option (Z * Z * Z)) : Prop :=
    match sh with None => True | Some (C, H, W) => C = 1 \/ H * W = 1 end.
  (** Weights (K,1,KH,KW) of a depth-wise convolution as weights (K,K,KH,KW):
      filter f has zeros for the channels other than f. *)
  Definition diagonal (c : conv_params) (w : list V) : list V :=
    tab3 (nf c * nf c) (kh c) (kw c) (fun r h j => if r / nf c =? r mod nf c then at3 z (kh c) (kw c) w (r / nf c) h j else z).
  Record in_channels_last (md : model N) (impl : nat -> himpl V) (shape : nat -> option (Z * Z * Z)) : Prop := {
    (** the dimensions agree with the size *)
    hl_shape : forall n C H W, In n (dnn (md_graph N md)) -> shape n = Some (C, H, W) -> 0 <= C /\ 0 <= H /\ 0 <= W /\ C * H * W = md_size N md n;
    hl_layer : forall n, In n (dnn (md_graph N md)) ->
      let ps := previous_layer (md_graph N md) n in
      match impl n with
      | Unchanged =>
          match lk N md n with
          | KInput4 _ C H W => shape n = Some (C, H, W)
          | KActivation _ _ => Forall (fun p => shape p = shape n) ps
          | KBroadcast _ _ shapes cst o =>
              (* operands of the dimensions of the result, or with a single element *)
              (flat (shape n) /\ Forall (fun p => flat (shape p)) ps) \/
              (shape n = Some (Broadcast.sC o, Broadcast.sH o, Broadcast.sW o) /\
               Forall2 (fun p s => (s = o /\ shape p = shape n) \/ (s = Broadcast.mkShape 1 1 1 /\ flat (shape p))) ps shapes /\
               (forall t, cst = Some t -> fst t = Broadcast.mkShape 1 1 1))
          | _ => flat (shape n) /\ Forall (fun p => flat (shape p)) ps
          end
      | DirectBlock => exists c w b, lk N md n = KConv N SixLoops c w b /\
          (forall p, In p ps -> shape p = Some (ic c, ih c, iw c)) /\ shape n = Some (nf c, oh c, ow c) /\
          pl c = pt c /\ dilation c = 1 /\ 0 < nf c /\ nf c mod block_k c = 0 /\
          (uses_winograd c = true -> oh c mod 2 = 0 /\ ow c mod 2 = 0)
      | DepthwiseBlock w => exists c b, lk N md n = KConv N SixLoops c (diagonal c w) b /\
          (forall p, In p ps -> shape p = Some (ic c, ih c, iw c)) /\ shape n = Some (nf c, oh c, ow c) /\
          pl c = pt c /\ dilation c = 1 /\ nf c = ic c
      | PoolLast => lact N (md_layer N md n) = LinearAct /\ exists P,
          (forall p, In p ps -> shape p = Some (p_C P, p_IH P, p_IW P)) /\ shape n = Some (p_C P, p_OH P, p_OW P) /\
          PropertiesPooling.pool_accepts P /\
          (lk N md n = KMaxPool N P \/
           (lk N md n = KAvgPool N P /\ p_top P = 0 /\ p_left P = 0 /\ p_bottom P = 0 /\ p_right P = 0))
      end;
    (** the output code knows the dimensions of the last tensor *)
    hl_output : forall n, In n (dnn (md_graph N md)) -> next_layer (md_graph N md) n = [] ->
      shape n = out_channels N (lk N md n) \/ (flat (shape n) /\ flat (out_channels N (lk N md n)))
  }.
End Hwc.
