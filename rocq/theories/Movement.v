(** * Layers that only move data: Input, Constant, Transpose, Tile, Gather,
    GatherElements, Concatenate, Flatten, and the output copy.
    Elements are of an arbitrary type [V]; [act] is the C expression produced
    by write_activation_str (see Activation.v), [d] a dummy element. *)
From Coq Require Import ZArith List Lia Bool.
Import ListNotations.
Open Scope Z_scope.
From Verif Require Import CMem Tensor.

Section Movement.
  Context {V : Type} (d : V).
  Notation mem := (mem V).

  (** ** Input and output copies.
      templates/layers/template_Input_Layer.c.tpl:2-7 (keep_channels) and
      templates/memory_layout/template_output.c.tpl:1-7. *)
  Definition copy_c (src dst : bname) (size : Z) (m : mem) : option mem :=
    for_ size (fun k m => v <- rd m src k ;; wr m dst k v) m.

  (** template_Input_Layer.c.tpl:8-20 and template_output.c.tpl:8-20
      (channels_first_to_last); the two index expressions
      (i + H*f)*W + j and (f*H + i)*W + j are equal. *)
  Definition first_to_last_c (src dst : bname) (C H W : Z) (m : mem) : option mem :=
    for_ C (fun f => for_ H (fun i => for_ W (fun j m =>
      v <- rd m src ((i + H * f) * W + j) ;; wr m dst ((i * W + j) * C + f) v))) m.

  (** template_Input_Layer.c.tpl:21-33 and template_output.c.tpl:21-33
      (channels_last_to_first). *)
  Definition last_to_first_c (src dst : bname) (C H W : Z) (m : mem) : option mem :=
    for_ C (fun f => for_ H (fun i => for_ W (fun j m =>
      v <- rd m src ((i * W + j) * C + f) ;; wr m dst ((i + H * f) * W + j) v))) m.

  (** Reference permutations of a flat tensor. *)
  Definition to_last (C H W : Z) (x : list V) : list V :=
    tab3 H W C (fun i j f => at3 d H W x f i j).
  Definition to_first (C H W : Z) (x : list V) : list V :=
    tab3 C H W (fun f i j => at3 d W C x i j f).

  (** templates/layers/template_constant.c.tpl:3-8; [w] is the constant array. *)
  Definition constant_c (w : list V) (dst : bname) (size : Z) (m : mem) : option mem :=
    for_ size (fun k m => v <- rdl w k ;; wr m dst k v) m.

  (** ** Transpose.  transpose/Transpose.py:49-57 (shapes),
      transpose/TransposeDefault.py:59-71 (choice of the loop variables),
      templates/layers/template_Transpose.c.tpl.  [p1 p2 p3] = perm[1:],
      perm[0] = 0 (the batch axis is not moved). *)
  Definition dim (C H W p : Z) : Z := if p =? 1 then C else if p =? 2 then H else W.
  Definition indices (p f i j : Z) : Z := if p =? 1 then f else if p =? 2 then i else j.
  Definition transpose_abc (p1 p2 p3 : Z) : Z * Z * Z :=
    if (p1 =? 2) && (p2 =? 3) && (p3 =? 1) then (p1, p3, p2)
    else if (p1 =? 3) && (p2 =? 1) && (p3 =? 2) then (p2, p1, p3)
    else (p3, p2, p1).
  Definition transpose_c (src out : bname) (C H W p1 p2 p3 : Z) (act : V -> V) : mem -> option mem :=
    let OC := dim C H W p1 in let OH := dim C H W p2 in let OW := dim C H W p3 in
    let '(a, b, c) := transpose_abc p1 p2 p3 in
    via_temp
      (for_ OC (fun f => for_ OH (fun i => for_ OW (fun j m =>
         v <- rd m src (indices a f i j + W * (indices b f i j + H * indices c f i j)) ;;
         wr m Temp (j + OW * (i + OH * f)) v))))
      (OC * OH * OW) act out.

  (** numpy.transpose(x, perm): out[i1,i2,i3] = x[n1,n2,n3] where n_{perm[k]} = i_k. *)
  Definition inv_index (p1 p2 p3 q i1 i2 i3 : Z) : Z :=
    if q =? p1 then i1 else if q =? p2 then i2 else i3.
  Definition np_transpose (C H W p1 p2 p3 : Z) (x : list V) : list V :=
    tab3 (dim C H W p1) (dim C H W p2) (dim C H W p3) (fun i1 i2 i3 =>
      at3 d H W x (inv_index p1 p2 p3 1 i1 i2 i3) (inv_index p1 p2 p3 2 i1 i2 i3)
                  (inv_index p1 p2 p3 3 i1 i2 i3)).

  Definition is_perm (p1 p2 p3 : Z) : Prop :=
    1 <= p1 <= 3 /\ 1 <= p2 <= 3 /\ 1 <= p3 <= 3 /\ p1 <> p2 /\ p1 <> p3 /\ p2 <> p3.

  (** ** Tile.  tile/Tile.py:54-57, templates/layers/template_Tile.c.tpl. *)
  Definition tile_c (src out : bname) (C H W rc rh rw : Z) (act : V -> V) : mem -> option mem :=
    let OC := rc * C in let OH := rh * H in let OW := rw * W in
    via_temp
      (for_ OC (fun f => for_ OH (fun i => for_ OW (fun j m =>
         v <- rd m src ((j mod W) + W * ((i mod H) + H * (f mod C))) ;;
         wr m Temp (j + OW * (i + OH * f)) v))))
      (OC * OH * OW) act out.
  (** tile/Tile.py:104-110: numpy.tile(x, repeats[1:]). *)
  Definition np_tile (C H W rc rh rw : Z) (x : list V) : list V :=
    tab3 (rc * C) (rh * H) (rw * W) (fun f i j => at3 d H W x (f mod C) (i mod H) (j mod W)).

  (** ** Gather.  gather/GatherDefault.py:54-69, templates/layers/template_Gather.c.tpl.
      State of the loops: (memory, position).  [inds] = indice_Gather_idx. *)
  Definition gather_store (src : bname) (act : V -> V) (a : Z) (st : mem * Z) : option (mem * Z) :=
    let '(m, position) := st in
    v <- rd m src a ;;
    m1 <- wr m Temp position v ;;
    v1 <- rd m1 Temp position ;;
    m2 <- wr m1 Temp position (act v1) ;;
    Some (m2, position + 1).
  Definition gather_loops (src : bname) (axis C H W : Z) (OC OH OW : Z) (inds : list Z) (act : V -> V)
      : mem * Z -> option (mem * Z) :=
    if axis =? 1 then
      for_ (zlen inds) (fun k st => f <- rdl inds k ;;
        for_ OH (fun i => for_ OW (fun j => gather_store src act (j + W * (i + H * f)))) st)
    else if axis =? 2 then
      for_ OC (fun f => for_ (zlen inds) (fun k st => i <- rdl inds k ;;
        for_ OW (fun j => gather_store src act (j + W * (i + H * f))) st))
    else
      for_ OC (fun f => for_ OH (fun i => for_ (zlen inds) (fun k st => j <- rdl inds k ;;
        gather_store src act (j + W * (i + H * f)) st))).
  Definition gather_c (src out : bname) (axis C H W OC OH OW : Z) (inds : list Z) (act : V -> V) (m : mem)
      : option mem :=
    st <- gather_loops src axis C H W OC OH OW inds act (m, 0) ;;
    copy_from_temp (OC * OH * OW) (fun v => v) out (fst st).
  (** gather/Gather.py:133: numpy.take(x, indices, axis-1) for a 1-D index array. *)
  Definition np_take (axis C H W : Z) (inds : list Z) (x : list V) : list V :=
    if axis =? 1 then tab3 (zlen inds) H W (fun k i j => at3 d H W x (nthZ 0 inds k) i j)
    else if axis =? 2 then tab3 C (zlen inds) W (fun f k j => at3 d H W x f (nthZ 0 inds k) j)
    else tab3 C H (zlen inds) (fun f i k => at3 d H W x f i (nthZ 0 inds k)).

  (** ** GatherElements.  templates/layers/template_GatherElements.c.tpl. *)
  Definition gather_elements_c (src out : bname) (axis H W OC OH OW : Z) (inds : list Z) (act : V -> V)
      : mem -> option mem :=
    via_temp
      (for_ OC (fun f => for_ OH (fun i => for_ OW (fun j m =>
         q <- rdl inds (j + OW * (i + OH * f)) ;;
         v <- (if axis =? 1 then rd m src (j + W * (i + H * q))
               else if axis =? 2 then rd m src (j + W * (q + H * f))
               else rd m src (q + W * (i + H * f))) ;;
         wr m Temp (j + OW * (i + OH * f)) v))))
      (OC * OH * OW) act out.
  (** gather_elements/GatherElements.py:142-158. *)
  Definition gather_elements_py (axis H W OC OH OW : Z) (inds : list Z) (x : list V) : list V :=
    tab3 OC OH OW (fun f i j =>
      let q := at3 0 OH OW inds f i j in
      if axis =? 1 then at3 d H W x q i j
      else if axis =? 2 then at3 d H W x f q j
      else at3 d H W x f i q).

  (** ** Flatten.  flatten/FlattenDefault.py, templates/layers/template_Flatten.c.tpl.
      The code reads and writes the layer's OWN array [out]; nothing is
      emitted for channels_first. *)
  Definition flatten_c (out : bname) (channels_last : bool) (C H W : Z) : mem -> option mem :=
    if channels_last then
      via_temp
        (for_ C (fun f => for_ H (fun i => for_ W (fun j m =>
           v <- rd m out ((f * H + i) * W + j) ;; wr m Temp ((i * W + j) * C + f) v))))
        (C * H * W) (fun v => v) out
    else fun m => Some m.
  (** flatten/Flatten.py:80-87. *)
  Definition flatten_py (channels_last : bool) (C H W : Z) (x : list V) : list V :=
    if channels_last then to_last C H W x else x.

  (** ** Concatenate.  concatenate/ConcatenateDefault.py:40-76 (bounds),
      templates/layers/template_Concatenate.c.tpl.  [ops]: operand array and shape. *)
  Record operand := mkOperand { op_src : bname; op_c : Z; op_h : Z; op_w : Z }.
  Definition op_dim (axis : Z) (o : operand) : Z := dim (op_c o) (op_h o) (op_w o) axis.
  Fixpoint concat_body (axis OH OW f i j inf : Z) (ops : list operand) (m : mem) : option mem :=
    match ops with
    | [] => Some m
    | o :: ops' =>
      let sup := inf + op_dim axis o in
      let W := op_w o in let H := op_h o in
      let pos := if axis =? 1 then f else if axis =? 2 then i else j in
      m' <- (if (pos <? sup) && (pos >=? inf) then
               v <- (if axis =? 1 then rd m (op_src o) (j + W * (i + H * (f - inf)))
                     else if axis =? 2 then rd m (op_src o) (j + W * ((i - inf) + H * f))
                     else rd m (op_src o) ((j - inf) + W * (i + H * f))) ;;
               wr m Temp (j + OW * (i + OH * f)) v
             else Some m) ;;
      concat_body axis OH OW f i j sup ops' m'
    end.
  Definition concat_c (out : bname) (axis OC OH OW : Z) (ops : list operand) (act : V -> V) : mem -> option mem :=
    via_temp
      (for_ OC (fun f => for_ OH (fun i => for_ OW (fun j => concat_body axis OH OW f i j 0 ops))))
      (OC * OH * OW) act out.

  (** concatenate/Concatenate.py:136-155: fold of numpy.concatenate((acc, x), axis-1).
      A shaped tensor is (C,H,W,data). *)
  Definition shaped : Type := Z * Z * Z * list V.
  Definition np_concat2 (axis : Z) (a b : shaped) : shaped :=
    let '(ca, ha, wa, xa) := a in let '(cb, hb, wb, xb) := b in
    if axis =? 1 then
      (ca + cb, ha, wa, tab3 (ca + cb) ha wa (fun f i j => if f <? ca then at3 d ha wa xa f i j else at3 d hb wb xb (f - ca) i j))
    else if axis =? 2 then
      (ca, ha + hb, wa, tab3 ca (ha + hb) wa (fun f i j => if i <? ha then at3 d ha wa xa f i j else at3 d hb wb xb f (i - ha) j))
    else
      (ca, ha, wa + wb, tab3 ca ha (wa + wb) (fun f i j => if j <? wa then at3 d ha wa xa f i j else at3 d hb wb xb f i (j - wa))).
  Definition np_concat (axis : Z) (x0 : shaped) (xs : list shaped) : shaped :=
    fold_left (np_concat2 axis) xs x0.
End Movement.
Arguments copy_c {V}. Arguments first_to_last_c {V}. Arguments last_to_first_c {V}.
Arguments constant_c {V}. Arguments transpose_c {V}. Arguments tile_c {V}.
Arguments gather_c {V}. Arguments gather_elements_c {V}. Arguments flatten_c {V}. Arguments concat_c {V}.
Arguments gather_loops {V}. Arguments gather_store {V}.
