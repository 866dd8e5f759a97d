(** * ONNX Pad, activation and shape-changing nodes: what the ONNX operator
    documentation says, for tensors of any rank. *)
From Coq Require Import ZArith List Lia Bool.
Import ListNotations.
Open Scope Z_scope.
From Verif Require Import CMem Num OnnxSpec.

(** Pad: [before] and [after] are the two halves of the pads input. *)
Inductive pad_mode := PadConstant | PadEdge | PadWrap | PadReflect.
Definition padded_dims (ds before after : list Z) : list Z := map2 Z.add (map2 Z.add before ds) after.
(** Where the element of (possibly outside) coordinate [k] on an axis of [n]
    elements comes from: the closest one (edge), the one at the same place of
    the repeated axis (wrap), its image in the mirrors put on the first and on
    the last element (reflect). *)
Definition closest (n k : Z) : Z := if k <? 0 then 0 else if k <? n then k else n - 1.
Definition repeated (n k : Z) : Z := k mod n.
Definition reflected (n k : Z) : Z := let r := k mod (2 * n - 2) in if r <? n then r else 2 * n - 2 - r.
Fixpoint within (ds idx : list Z) : bool :=
  match ds, idx with n :: ds', k :: idx' => (0 <=? k) && (k <? n) && within ds' idx' | _, _ => true end.
Definition padded {V} (d : V) (mode : pad_mode) (value : V) (ds before after : list Z) (x y : list V) : Prop :=
  let ods := padded_dims ds before after in
  zlen y = prod ods /\
  forall idx, inside ods idx ->
    let src := map2 Z.sub idx before in
    el d ods y idx =
    match mode with
    | PadConstant => if within ds src then el d ds x src else value
    | PadEdge => el d ds x (map2 closest ds src)
    | PadWrap => el d ds x (map2 repeated ds src)
    | PadReflect => el d ds x (map2 reflected ds src)
    end.
(** With an axes input the pads are those of the listed axes (from the back
    when negative), in that order; the other axes are not padded. *)
Fixpoint pads_on (axes : list nat) (pads acc : list Z) : list Z :=
  match axes, pads with a :: axes', p :: pads' => pads_on axes' pads' (set_at a p acc) | _, _ => acc end.
Definition pads_of_axes (ds axes half : list Z) : list Z := pads_on (map (axis_pos ds) axes) half (repeat 0 (length ds)).

(** Activation nodes, over the reals: one value per element, whatever the
    shape.  The bounds of Clip are optional. *)
From Coq Require Import Reals.
Inductive unary_op := ORelu | OTanh | OSigmoid | OExp | OLog | OLeakyRelu (alpha : option R) | OClip (mn mx : option R).
Section Unary.
  Local Open Scope R_scope.
  Definition onnx_unary (op : unary_op) (x : R) : R :=
    match op with
    | ORelu => Rmax x 0
    | OTanh => (exp x - exp (- x)) / (exp x + exp (- x))
    | OSigmoid => / (1 + exp (- x))
    | OExp => exp x
    | OLog => ln x
    | OLeakyRelu alpha => if Rlt_dec x 0 then (match alpha with Some a => a | None => 1 / 100 end) * x else x
    | OClip mn mx =>
        let y := match mn with Some a => Rmax a x | None => x end in
        match mx with Some b => Rmin b y | None => y end
    end.
End Unary.

(** Nodes that only change the shape.  All keep the elements in row-major
    order; each is described by what its documentation says about coordinates. *)
Local Open Scope Z_scope.
Section Shapes.
  Context {V : Type} (d : V).
  (** Reshape: the same number of elements, each at the same position of the
      flattened tensor. *)
  Definition reshaped (ds ods : list Z) (x y : list V) : Prop :=
    zlen y = prod ods /\
    forall idx jdx, inside ds idx -> inside ods jdx -> offset ds idx = offset ods jdx -> el d ods y jdx = el d ds x idx.
  (** Flatten at [a]: a matrix whose rows are the first [a] axes. *)
  Definition flattened (ds : list Z) (a : nat) (x y : list V) : Prop :=
    let ods := [prod (firstn a ds); prod (skipn a ds)] in
    zlen y = prod ods /\
    forall idx, inside ds idx ->
      el d ods y [offset (firstn a ds) (firstn a idx); offset (skipn a ds) (skipn a idx)] = el d ds x idx.
  (** Unsqueeze: a new axis of one element at [p]. *)
  Definition insert_at (p : nat) (v : Z) (l : list Z) : list Z := firstn p l ++ v :: skipn p l.
  Definition unsqueezed (ds : list Z) (p : nat) (x y : list V) : Prop :=
    zlen y = prod (insert_at p 1 ds) /\
    forall idx, inside ds idx -> el d (insert_at p 1 ds) y (insert_at p 0 idx) = el d ds x idx.
End Shapes.
(** Shape: the dimensions, as a tensor of integers. *)
Definition shape_value (ds : list Z) : list Z := ds.
(** LRN over [size] channels: each element divided by
    (bias + alpha / size * the sum of the squares of its neighbours) ^ beta;
    here with beta = 1 and size = 1. *)
Definition lrn1 (alpha bias x : R) : R := (x / (bias + alpha * (x * x)))%R.
