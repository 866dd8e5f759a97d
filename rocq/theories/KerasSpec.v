(** * Keras layers: what the Keras documentation says, with no reference to the
    importer or to the layers of acetone.  Real numbers.  Tensors have no batch
    dimension: one sample.  Elements are stored in row-major order of the
    dimensions, as Keras does. *)
From Coq Require Import String.
From Coq Require Import ZArith List Lia Bool Reals.
Import ListNotations.
From Verif Require Import CMem Tensor Num RealInst.
Open Scope list_scope.
Open Scope Z_scope.

Record tensor := mkT { dims : list Z; vals : list R }.
Definition size_of (ds : list Z) : Z := fold_right Z.mul 1 ds.

(** ** Images: (height, width, channels), or (channels, height, width). *)
Inductive data_format := channels_last | channels_first.
Definition image_dims (fmt : data_format) (ds : list Z) : option (Z * Z * Z) :=
  match ds with
  | [a; b; c] => Some (match fmt with channels_last => (a, b, c) | channels_first => (b, c, a) end)
  | _ => None
  end.
(** Element of row [i], column [j], channel [c] of an H x W image of C channels. *)
Definition px (fmt : data_format) (H W C : Z) (x : list R) (i j c : Z) : R :=
  match fmt with channels_last => at3 0%R W C x i j c | channels_first => at3 0%R H W x c i j end.
Definition px0 (fmt : data_format) (H W C : Z) (x : list R) (i j c : Z) : R :=
  if (0 <=? i) && (i <? H) && (0 <=? j) && (j <? W) then px fmt H W C x i j c else 0%R.
Definition image (fmt : data_format) (H W C : Z) : list Z :=
  match fmt with channels_last => [H; W; C] | channels_first => [C; H; W] end.
Definition of_px (fmt : data_format) (H W C : Z) (f : Z -> Z -> Z -> R) : list R :=
  match fmt with channels_last => tab3 H W C f | channels_first => tab3 C H W (fun c i j => f i j c) end.

(** ** Activations.  softmax is along the last axis. *)
Inductive activation := linear | relu | sigmoid | tanh | leaky_relu | swish | softmax.
Definition act_fn (a : activation) (x : R) : R :=
  match a with
  | linear | softmax => x
  | relu => Rmax 0 x
  | sigmoid => 1 / (1 + exp (- x))
  | tanh => Rtrigo_def.tanh x
  | leaky_relu => if Rlt_dec x 0 then 2 / 10 * x else x
  | swish => x * (1 / (1 + exp (- x)))
  end%R.
Definition softmaxed (ds : list Z) (x : list R) : list R :=
  let n := last ds 1 in
  tab (zlen x) (fun k => exp (nthZ 0%R x k) / nsum Rnum n (fun m => exp (nthZ 0%R x (k / n * n + m))))%R.
Definition activated (a : activation) (ds : list Z) (x : list R) : list R :=
  match a with softmax => softmaxed ds x | _ => map (act_fn a) x end.

(** ** Windows of length [k], stride [s], dilation [d] along an axis of length [n]. *)
Inductive padding := valid | same.
Definition extent (k d : Z) : Z := (k - 1) * d + 1.
Definition window_count (p : padding) (n k s d : Z) : Z :=
  match p with valid => (n - extent k d) / s + 1 | same => - (- n / s) end.
Definition window_before (p : padding) (n k s d : Z) : Z :=
  match p with valid => 0 | same => Z.max 0 ((window_count same n k s d - 1) * s + extent k d - n) / 2 end.
(** The windows exist. *)
Definition windowed (p : padding) (n k s d : Z) : bool :=
  (1 <=? k) && (1 <=? s) && (1 <=? d) && match p with valid => extent k d <=? n | same => true end.

Inductive merge := Add | Subtract | Multiply | Maximum | Minimum | Average.

Inductive op :=
| Dense (units : Z) (kernel : list R) (bias : option (list R)) (a : activation)
| Conv2D (fmt : data_format) (filters kh kw sh sw : Z) (p : padding) (dh dw groups : Z) (kernel : list R) (bias : option (list R)) (a : activation)
| MaxPooling2D (fmt : data_format) (ph pw sh sw : Z) (p : padding)
| AveragePooling2D (fmt : data_format) (ph pw sh sw : Z) (p : padding)
| Flatten (fmt : data_format)
| Merge (m : merge)
| Concatenate (axis : Z)
| ZeroPadding2D (fmt : data_format) (top bottom left right : Z)
| BatchNormalization (axis : Z) (gamma beta : option (list R)) (mean var : list R) (epsilon : R)
| Dropout
| Reshape (target : list Z).

(** ** Dimensions of the result. *)
Definition out_window (fmt : data_format) (ds : list Z) (p : padding) (kh kw sh sw dh dw : Z) (channels : Z -> Z) : option (list Z) :=
  hwc <- image_dims fmt ds ;; let '(H, W, C) := hwc in
  if windowed p H kh sh dh && windowed p W kw sw dw
  then Some (image fmt (window_count p H kh sh dh) (window_count p W kw sw dw) (channels C)) else None.
(** Broadcasting: along each axis the lengths are 1 or a common length. *)
Definition common_dim (a b : Z) : option Z :=
  if a =? b then Some a else if a =? 1 then Some b else if b =? 1 then Some a else None.
Fixpoint common_dims (s t : list Z) : option (list Z) :=
  match s, t with
  | [], [] => Some []
  | a :: s', b :: t' => d <- common_dim a b ;; r <- common_dims s' t' ;; Some (d :: r)
  | _, _ => None
  end.
Fixpoint all_common (s : list Z) (l : list (list Z)) : option (list Z) :=
  match l with [] => Some s | t :: l' => r <- common_dims s t ;; all_common r l' end.
(** Position of an axis among the dimensions; axis 0 is the batch. *)
Definition axis_of (axis rank : Z) : option Z :=
  if (1 <=? axis) && (axis <=? rank) then Some (axis - 1)
  else if (- rank <=? axis) && (axis <=? -1) then Some (rank + axis) else None.
Fixpoint joined (k : nat) (s t : list Z) : option (list Z) :=
  match k, s, t with
  | O, a :: s', b :: t' => if list_eq_dec Z.eq_dec s' t' then Some (a + b :: s') else None
  | S k', a :: s', b :: t' => if a =? b then r <- joined k' s' t' ;; Some (a :: r) else None
  | _, _, _ => None
  end.
Fixpoint all_joined (k : nat) (s : list Z) (l : list (list Z)) : option (list Z) :=
  match l with [] => Some s | t :: l' => r <- joined k s t ;; all_joined k r l' end.
Definition out_dims (o : op) (ins : list (list Z)) : option (list Z) :=
  match o, ins with
  | Dense units _ _ _, [ds] => match rev ds with [] => None | _ :: r => Some (rev r ++ [units]) end
  | Conv2D fmt filters kh kw sh sw p dh dw _ _ _ _, [ds] => out_window fmt ds p kh kw sh sw dh dw (fun _ => filters)
  | MaxPooling2D fmt ph pw sh sw p, [ds] | AveragePooling2D fmt ph pw sh sw p, [ds] => out_window fmt ds p ph pw sh sw 1 1 (fun C => C)
  | Flatten _, [ds] => Some [size_of ds]
  | Merge Subtract, [s; t] => common_dims s t
  | Merge Subtract, _ => None
  | Merge _, s :: t :: r => all_common s (t :: r)
  | Concatenate axis, s :: r => k <- axis_of axis (zlen s) ;; all_joined (Z.to_nat k) s r
  | ZeroPadding2D fmt t b l r, [ds] => hwc <- image_dims fmt ds ;; let '(H, W, C) := hwc in Some (image fmt (t + H + b) (l + W + r) C)
  | BatchNormalization _ _ _ _ _ _, [ds] => Some ds
  | Dropout, [ds] => Some ds
  | Reshape target, [ds] => if size_of target =? size_of ds then Some target else None
  | _, _ => None
  end.

(** ** Elements of the result. *)
Definition bias_at (bias : option (list R)) (f : Z) : R := match bias with Some b => nthZ 0%R b f | None => 0%R end.
(** Every row (last axis) of the input is multiplied by the kernel. *)
Definition dense_value (units : Z) (kernel : list R) (bias : option (list R)) (t : tensor) : list R :=
  let n := last (dims t) 1 in
  tab (size_of (dims t) / n * units) (fun k =>
    nsum Rnum n (fun m => nthZ 0%R (vals t) (k / units * n + m) * nthZ 0%R kernel (m * units + k mod units)) + bias_at bias (k mod units))%R.
(** kernel[a, b, c, f]; filter f reads the channels of its group. *)
Definition conv_value (fmt : data_format) (filters kh kw sh sw : Z) (p : padding) (dh dw groups : Z) (kernel : list R) (bias : option (list R)) (t : tensor) : list R :=
  match image_dims fmt (dims t) with
  | None => []
  | Some (H, W, C) =>
      let top := window_before p H kh sh dh in let left := window_before p W kw sw dw in
      let c0 f := f / (filters / groups) * (C / groups) in
      of_px fmt (window_count p H kh sh dh) (window_count p W kw sw dw) filters (fun i j f =>
        nsum Rnum kh (fun a => nsum Rnum kw (fun b => nsum Rnum (C / groups) (fun c =>
          px0 fmt H W C (vals t) (i * sh + a * dh - top) (j * sw + b * dw - left) (c0 f + c) *
          nthZ 0%R kernel (((a * kw + b) * (C / groups) + c) * filters + f)))) + bias_at bias f)%R
  end.
(** The elements below a pooling window; padding is not an element. *)
Definition upto (n : Z) : list Z := tab n (fun k => k).
Definition below (fmt : data_format) (H W C : Z) (x : list R) (ph pw sh sw top left i j c : Z) : list R :=
  flat_map (fun a => flat_map (fun b =>
    let r := i * sh + a - top in let k := j * sw + b - left in
    if (0 <=? r) && (r <? H) && (0 <=? k) && (k <? W) then [px fmt H W C x r k c] else []) (upto pw)) (upto ph).
Definition maximum (l : list R) : R := match l with [] => 0%R | v :: r => fold_left Rmax r v end.
Definition minimum (l : list R) : R := match l with [] => 0%R | v :: r => fold_left Rmin r v end.
Definition sum (l : list R) : R := fold_right Rplus 0%R l.
Definition average (l : list R) : R := (sum l / IZR (zlen l))%R.
Definition pool_value (fmt : data_format) (ph pw sh sw : Z) (p : padding) (f : list R -> R) (t : tensor) : list R :=
  match image_dims fmt (dims t) with
  | None => []
  | Some (H, W, C) =>
      of_px fmt (window_count p H ph sh 1) (window_count p W pw sw 1) C (fun i j c =>
        f (below fmt H W C (vals t) ph pw sh sw (window_before p H ph sh 1) (window_before p W pw sw 1) i j c))
  end.
(** Tensors of one, two or three dimensions seen with three. *)
Definition three (ds : list Z) : Z * Z * Z :=
  match ds with [a] => (1, 1, a) | [a; b] => (1, a, b) | [a; b; c] => (a, b, c) | _ => (0, 0, 0) end.
Definition el3 (t : tensor) (i j k : Z) : R := let '(_, b, c) := three (dims t) in at3 0%R b c (vals t) i j k.
Definition stretch (n k : Z) : Z := if n =? 1 then 0 else k.
Definition el_stretched (t : tensor) (i j k : Z) : R :=
  let '(a, b, c) := three (dims t) in el3 t (stretch a i) (stretch b j) (stretch c k).
Definition product (l : list R) : R := fold_right Rmult 1%R l.
Definition merged (m : merge) (l : list R) : R :=
  match m with
  | Add => sum l
  | Subtract => match l with a :: r => (a - sum r)%R | [] => 0%R end
  | Multiply => product l
  | Maximum => maximum l
  | Minimum => minimum l
  | Average => average l
  end.
Definition merge_value (m : merge) (ts : list tensor) (out : list Z) : list R :=
  let '(A, B, C) := three out in tab3 A B C (fun i j k => merged m (map (fun t => el_stretched t i j k) ts)).
(** Concatenation along axis [p] (of the three): element (i, j, k) comes from
    the operand whose slice contains it. *)
Fixpoint joined_at (p : Z) (ts : list tensor) (i j k : Z) : R :=
  match ts with
  | [] => 0%R
  | t :: r =>
      let '(a, b, c) := three (dims t) in
      if p =? 0 then if i <? a then el3 t i j k else joined_at p r (i - a) j k
      else if p =? 1 then if j <? b then el3 t i j k else joined_at p r i (j - b) k
      else if k <? c then el3 t i j k else joined_at p r i j (k - c)
  end.
Definition join_value (axis : Z) (ts : list tensor) (out : list Z) : list R :=
  let rank := zlen out in
  match axis_of axis rank with
  | Some p => let '(A, B, C) := three out in tab3 A B C (joined_at (p + 3 - rank) ts)
  | None => []
  end.
Definition zero_padded_value (fmt : data_format) (top bottom left right : Z) (t : tensor) : list R :=
  match image_dims fmt (dims t) with
  | None => []
  | Some (H, W, C) => of_px fmt (top + H + bottom) (left + W + right) C (fun i j c => px0 fmt H W C (vals t) (i - top) (j - left) c)
  end.
(** [axis]: the axis of the statistics. *)
Definition normalised (axis : Z) (gamma beta : option (list R)) (mean var : list R) (epsilon : R) (t : tensor) : list R :=
  match axis_of axis (zlen (dims t)) with
  | None => []
  | Some p =>
      let inner := size_of (skipn (Z.to_nat p + 1) (dims t)) in
      let n := nth (Z.to_nat p) (dims t) 1 in
      tab (zlen (vals t)) (fun k =>
        let c := k / inner mod n in
        (match gamma with Some g => nthZ 0 g c | None => 1 end * (nthZ 0 (vals t) k - nthZ 0 mean c) / sqrt (nthZ 0 var c + epsilon)
         + match beta with Some b => nthZ 0 b c | None => 0 end)%R)
  end.
(** The elements in channels_last order. *)
Definition flattened_value (fmt : data_format) (t : tensor) : list R :=
  match image_dims fmt (dims t) with
  | None => vals t
  | Some (H, W, C) => tab3 H W C (fun i j c => px fmt H W C (vals t) i j c)
  end.

Definition result (o : op) (ts : list tensor) (out : list Z) : list R :=
  match o, ts with
  | Dense units kernel bias a, [t] => activated a out (dense_value units kernel bias t)
  | Conv2D fmt filters kh kw sh sw p dh dw groups kernel bias a, [t] =>
      activated a out (conv_value fmt filters kh kw sh sw p dh dw groups kernel bias t)
  | MaxPooling2D fmt ph pw sh sw p, [t] => pool_value fmt ph pw sh sw p maximum t
  | AveragePooling2D fmt ph pw sh sw p, [t] => pool_value fmt ph pw sh sw p average t
  | Flatten fmt, [t] => flattened_value fmt t
  | Merge m, _ => merge_value m ts out
  | Concatenate axis, _ => join_value axis ts out
  | ZeroPadding2D fmt top bottom lft rgt, [t] => zero_padded_value fmt top bottom lft rgt t
  | BatchNormalization axis gamma beta mean var epsilon, [t] => normalised axis gamma beta mean var epsilon t
  | Dropout, [t] => vals t
  | Reshape _, [t] => vals t
  | _, _ => []
  end.
Definition apply (o : op) (ts : list tensor) : option tensor :=
  ds <- out_dims o (map dims ts) ;; Some (mkT ds (result o ts ds)).

(** ** Models.  The layers after the input layer, in the order of model.layers,
    with the names of the layers they read. *)
Record node := mkNode { n_name : string; n_op : op; n_inputs : list string }.
Record kmodel := mkKModel { k_sequential : bool; k_input : string; k_shape : list Z; k_nodes : list node }.
Definition k_output (m : kmodel) : string := n_name (last (k_nodes m) (mkNode (k_input m) Dropout [])).
(** [env]: the tensors computed by the layers on the input [x]. *)
Definition runs (m : kmodel) (x : list R) (env : string -> tensor) : Prop :=
  env (k_input m) = mkT (k_shape m) x /\
  forall n, In n (k_nodes m) -> apply (n_op n) (map env (n_inputs n)) = Some (env (n_name n)).
(** Layers have distinct names and read earlier layers; every layer but the
    output layer is read by one; a Sequential model is a chain. *)
Record well_formed (m : kmodel) : Prop := {
  wf_names : NoDup (k_input m :: map n_name (k_nodes m));
  wf_order : forall before n after, k_nodes m = before ++ n :: after ->
    n_inputs n <> [] /\ incl (n_inputs n) (k_input m :: map n_name before);
  wf_read : forall nm, In nm (k_input m :: map n_name (k_nodes m)) -> nm <> k_output m ->
    exists n, In n (k_nodes m) /\ In nm (n_inputs n);
  wf_chain : k_sequential m = true -> forall before n after, k_nodes m = before ++ n :: after ->
    n_inputs n = [last (map n_name before) (k_input m)];
  wf_some : k_nodes m <> []
}.
