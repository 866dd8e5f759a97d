(** * Creation of layers from ONNX nodes.
    src/acetone_nnet/importers/ONNX_importer/create_layer.py (the line numbers
    below are in this file unless another file is named) and the value checks
    of the layer constructors.  [None] is an exception.  Shapes are given as
    the dim_value lists of value_info / graph.input / graph.output. *)
From Coq Require Import ZArith List Lia Bool.
Import ListNotations.
Open Scope Z_scope.
From Verif Require Import CMem.

(** get_shape, 140-175: zero (symbolic) becomes 1, a negative value counts from
    the rank; with [extend], ranks one to four are completed with leading ones. *)
Definition resolve (raw : list Z) : list Z :=
  map (fun n => if n =? 0 then 1 else if n <? 0 then zlen raw + n else n) raw.
Definition extend (ds : list Z) : list Z :=
  match ds with
  | [] => []
  | _ => if (length ds <=? 4)%nat then repeat 1 (4 - length ds) ++ ds else ds
  end.
Definition get_shape (raw : list Z) : list Z := extend (resolve raw).

(** find_size, 178-185. *)
Definition find_size (shape : list Z) : Z := fold_left (fun s i => if i =? 0 then s else s * i) shape 1.

(** The axis of the extended tensor; 258-261 (Softmax), 345-348 (Concat),
    500-503 (Gather), 540-543 (GatherElements), 810-814 and the same lines of
    the four other reductions. *)
Definition import_axis (extended raw : list Z) (a : Z) : Z :=
  if a <? 0 then zlen extended + a else zlen extended + a - zlen raw.

(** create_softmax 253-261: without an axis attribute. *)
Definition softmax_axis (opset : Z) (raw_in raw_out : list Z) (axis : option Z) : Z :=
  match axis with
  | None => if opset <? 13 then 1 else zlen (get_shape raw_out) - 1
  | Some a => if a <? 0 then zlen (get_shape raw_out) + a else 4 + a - zlen raw_in
  end.

(** The three dimensions a constructor reads: shape[1], shape[2], shape[3]. *)
Definition dims3 (shape : list Z) : option (Z * Z * Z) :=
  match shape with _ :: c :: h :: w :: _ => Some (c, h, w) | _ => None end.

(** create_gather 483-520 and gather/Gather.py:61-63, 103-121.  [inds] is the
    flattened index array. *)
Record gather_layer := mkGatherLayer {
  g_axis : Z; g_C : Z; g_H : Z; g_W : Z; g_OC : Z; g_OH : Z; g_OW : Z; g_inds : list Z }.
Definition gather_axis (raw_in : list Z) (axis : option Z) : Z :=
  match axis with None => 0 | Some a => import_axis (get_shape raw_in) raw_in a end.
Definition adjust_index (s i : Z) : Z := if i <? 0 then s - Z.abs i else i.
Definition create_gather (raw_in raw_out : list Z) (axis : option Z) (inds : list Z) : option gather_layer :=
  let k := gather_axis raw_in axis in
  s <- rdl (get_shape raw_in) k ;;
  let inds' := map (adjust_index s) inds in
  i3 <- dims3 (get_shape raw_in) ;;
  o3 <- dims3 (get_shape raw_out) ;;
  let '(C, H, W) := i3 in let '(OC, OH, OW) := o3 in
  if (find_size (get_shape raw_out) =? OC * OH * OW) && (1 <=? k) && (k <=? 3) &&
     forallb (fun i => (0 <=? i) && (i <? s)) inds'
  then Some (mkGatherLayer k C H W OC OH OW inds') else None.

(** create_gather_elements 522-560 and gather_elements/GatherElements.py:60-66,
    106-140.  [idims] is indices.shape; the loop 548-549 adds leading ones. *)
Definition create_gather_elements (raw_in raw_out : list Z) (axis : option Z) (idims inds : list Z) : option gather_layer :=
  let k := gather_axis raw_in axis in
  s <- rdl (get_shape raw_in) k ;;
  let inds' := map (adjust_index s) inds in
  i3 <- dims3 (get_shape raw_in) ;;
  o3 <- dims3 (get_shape raw_out) ;;
  let '(C, H, W) := i3 in let '(OC, OH, OW) := o3 in
  let edims := repeat 1 (length (get_shape raw_out) - length idims) ++ idims in
  if (find_size (get_shape raw_out) =? OC * OH * OW) && (1 <=? k) && (k <=? 3) &&
     forallb (fun i => (0 <=? i) && (i <? s)) inds' &&
     (if list_eq_dec Z.eq_dec (tl edims) [OC; OH; OW] then true else false) &&
     ((k =? 1) || (OC =? C)) && ((k =? 2) || (OH =? H)) && ((k =? 3) || (OW =? W))
  then Some (mkGatherLayer k C H W OC OH OW inds') else None.

(** create_concat 327-357 and concatenate/Concatenate.py:53-56, 91-128. *)
Record concat_layer := mkConcatLayer { cc_axis : Z; cc_OC : Z; cc_OH : Z; cc_OW : Z; cc_shapes : list (Z * Z * Z) }.
Fixpoint all_some {A} (l : list (option A)) : option (list A) :=
  match l with
  | [] => Some []
  | None :: _ => None
  | Some a :: r => match all_some r with Some r' => Some (a :: r') | None => None end
  end.
Definition pick3 (k : Z) (s : Z * Z * Z) : Z := let '(c, h, w) := s in if k =? 1 then c else if k =? 2 then h else w.
Definition create_concat (raw_ins : list (list Z)) (raw_out : list Z) (axis : Z) : option concat_layer :=
  match raw_ins with
  | [] => None
  | raw0 :: _ =>
      let k := if axis <? 0 then zlen (get_shape raw_out) + axis else zlen (get_shape raw0) + axis - zlen raw0 in
      shapes <- all_some (map (fun r => dims3 (get_shape r)) raw_ins) ;;
      o3 <- dims3 (get_shape raw_out) ;;
      let '(OC, OH, OW) := o3 in
      if (find_size (get_shape raw_out) =? OC * OH * OW) && (1 <=? k) && (k <=? 3) &&
         forallb (fun s => ((k =? 1) || (pick3 1 s =? OC)) && ((k =? 2) || (pick3 2 s =? OH)) && ((k =? 3) || (pick3 3 s =? OW))) shapes &&
         (pick3 k o3 =? fold_right Z.add 0 (map (pick3 k) shapes))
      then Some (mkConcatLayer k OC OH OW shapes) else None
  end.

(** create_tile 742-770 and tile/Tile.py:47-59, 83-97. *)
Record tile_layer := mkTileLayer { t_C : Z; t_H : Z; t_W : Z; t_rc : Z; t_rh : Z; t_rw : Z }.
Definition create_tile (raw_in raw_out : list Z) (repeats : list Z) : option tile_layer :=
  let reps := repeat 1 (4 - length repeats) ++ repeats in
  i3 <- dims3 (get_shape raw_in) ;;
  r3 <- dims3 reps ;;
  let '(C, H, W) := i3 in let '(rc, rh, rw) := r3 in
  if (find_size (get_shape raw_out) =? (rc * C) * (rh * H) * (rw * W)) && (length reps =? 4)%nat &&
     forallb (fun r => 0 <? r) reps
  then Some (mkTileLayer C H W rc rh rw) else None.

(** create_transpose 719-740 and transpose/Transpose.py:50-58, 86-104. *)
Fixpoint distinct (l : list Z) : bool :=
  match l with [] => true | a :: r => negb (existsb (Z.eqb a) r) && distinct r end.
Record transpose_layer := mkTransposeLayer { tr_C : Z; tr_H : Z; tr_W : Z; tr_p1 : Z; tr_p2 : Z; tr_p3 : Z }.
Definition create_transpose (raw_in raw_out : list Z) (perm : list Z) : option transpose_layer :=
  i3 <- dims3 (get_shape raw_in) ;;
  p3 <- dims3 perm ;;
  let '(C, H, W) := i3 in let '(p1, p2, p3) := p3 in
  OC <- rdl (get_shape raw_in) p1 ;;
  OH <- rdl (get_shape raw_in) p2 ;;
  OW <- rdl (get_shape raw_in) p3 ;;
  if (find_size (get_shape raw_out) =? OC * OH * OW) && forallb (fun p => (0 <=? p) && (p <? 4)) perm &&
     distinct perm
  then Some (mkTransposeLayer C H W p1 p2 p3) else None.

(** create_reduce_sum 773-825 (opset 13 and later; the four other reductions
    from opset 18), reduce/Reduce.py:55-79, 112-124.  Before, numpy_helper.to_array
    is applied to the axes attribute, which is a list: an exception.
    [axes]: the second input, if the node has one. *)
Record reduce_layer := mkReduceLayer { r_C : Z; r_H : Z; r_W : Z; r_axes : list Z; r_noop : bool }.
Definition create_reduce (since opset : Z) (raw_in raw_out : list Z) (axes : option (list Z)) (noop : bool) : option reduce_layer :=
  if opset <? since then None
  else
    let ax := map (import_axis (get_shape raw_in) raw_in) (match axes with Some l => l | None => [] end) in
    i3 <- dims3 (get_shape raw_in) ;;
    let '(C, H, W) := i3 in
    let has a := existsb (Z.eqb a) ax || ((match ax with [] => true | _ => false end) && negb noop) in
    if (find_size (get_shape raw_out) =? (if has 1 then 1 else C) * (if has 2 then 1 else H) * (if has 3 then 1 else W)) &&
       forallb (fun a => (0 <=? a) && (a <? 4)) ax
    then Some (mkReduceLayer C H W ax noop) else None.

(** create_softmax 232-265, softmax/Softmax.py:50-56, 86-95. *)
Record softmax_layer := mkSoftmaxLayer { s_C : Z; s_H : Z; s_W : Z; s_axis : Z }.
Definition create_softmax (opset : Z) (raw_in raw_out : list Z) (axis : option Z) : option softmax_layer :=
  let k := softmax_axis opset raw_in raw_out axis in
  o3 <- dims3 (get_shape raw_out) ;;
  let '(C, H, W) := o3 in
  if (existsb (Z.eqb (find_size (get_shape raw_out))) (get_shape raw_out) || (find_size (get_shape raw_out) =? C * H * W)) &&
     existsb (Z.eqb k) [1; 2; 3]
  then Some (mkSoftmaxLayer C H W k) else None.

(** create_add 1169-1196, create_max 1330-1353, create_min 1356-1379 and, without
    initialisers, create_div 1199-1241, create_mul 1244-1284, create_sub 1287-1327;
    the checks of broadcast/add/Add.py:86-112 (the same in the other classes and
    in broadcast/Broadcast.py:96-125).
    create_avg 1382-1404 passes a list of lists where broadcast/average/Average.py:77
    indexes an array ([:, 1:]): TypeError. *)
Record elementwise_layer := mkElementwiseLayer { ew_shapes : list (Z * Z * Z); ew_out : Z * Z * Z }.
Definition np_max (l : list Z) : option Z := match l with [] => None | a :: r => Some (fold_left Z.max r a) end.
Definition is_some_eq (o : option Z) (v : Z) : bool := match o with Some u => u =? v | None => false end.
Definition one_or (v u : Z) : bool := (u =? 1) || (u =? v).
Definition create_elementwise (mean : bool) (raw_ins : list (list Z)) (raw_out : list Z) : option elementwise_layer :=
  if mean then None
  else
    shapes <- all_some (map (fun r => dims3 (get_shape r)) raw_ins) ;;
    o3 <- dims3 (get_shape raw_out) ;;
    let '(OC, OH, OW) := o3 in
    if (find_size (get_shape raw_out) =? OC * OH * OW) &&
       is_some_eq (np_max (map (pick3 1) shapes)) OC && is_some_eq (np_max (map (pick3 2) shapes)) OH &&
       is_some_eq (np_max (map (pick3 3) shapes)) OW &&
       forallb (fun s => one_or OC (pick3 1 s) && one_or OH (pick3 2 s) && one_or OW (pick3 3 s)) shapes
    then Some (mkElementwiseLayer shapes o3) else None.
