(** * ONNX operators on tensors of any rank: what the ONNX operator
    documentation says, with no reference to the layers of the tool.
    A tensor is its list of dimensions and its elements in row-major order. *)
From Coq Require Import ZArith List Lia Bool.
Import ListNotations.
Open Scope Z_scope.
From Verif Require Import CMem Num Reduce.

Fixpoint prod (ds : list Z) : Z := match ds with [] => 1 | n :: r => n * prod r end.
(** Position of the element of coordinates [idx]. *)
Fixpoint offset (ds idx : list Z) : Z :=
  match ds, idx with _ :: ds', i :: idx' => i * prod ds' + offset ds' idx' | _, _ => 0 end.
Definition inside (ds idx : list Z) : Prop := Forall2 (fun n i => 0 <= i < n) ds idx.
(** The element of coordinates [idx]. *)
Definition el {V} (d : V) (ds : list Z) (x : list V) (idx : list Z) : V := nthZ d x (offset ds idx).
Fixpoint set_at {A} (p : nat) (v : A) (l : list A) : list A :=
  match l, p with [], _ => [] | _ :: r, O => v :: r | a :: r, S q => a :: set_at q v r end.
Definition coord (p : nat) (l : list Z) : Z := nth p l 0.

(** "Negative value means counting dimensions (or indices) from the back." *)
Definition from_back (n a : Z) : Z := if a <? 0 then n + a else a.
Definition axis_pos (ds : list Z) (a : Z) : nat := Z.to_nat (from_back (zlen ds) a).
(** An axis attribute is in [-r, r-1]. *)
Definition valid_axis (ds : list Z) (a : Z) : Prop := - zlen ds <= a < zlen ds.

(** A symbolic dimension (dim_value 0) is the batch: the tool runs one sample. *)
Definition run_dims (raw : list Z) : list Z := map (fun n => if n =? 0 then 1 else n) raw.
(** One sample of rank one to four. *)
Definition one_sample (raw : list Z) : Prop :=
  1 <= zlen raw <= 4 /\ Forall (fun n => 0 <= n) raw /\ (zlen raw = 4 -> coord 0 (run_dims raw) = 1).

Section Ops.
  Context {V : Type} (d : V).

  (** Gather, one-dimensional indices, axis [p]. *)
  Definition gathered (ds : list Z) (p : nat) (inds : list Z) (x y : list V) : Prop :=
    let ods := set_at p (zlen inds) ds in
    zlen y = prod ods /\
    forall idx, inside ods idx ->
      el d ods y idx = el d ds x (set_at p (from_back (coord p ds) (nthZ 0 inds (coord p idx))) idx).
  (** Gather, one scalar index: the axis disappears. *)
  Definition gathered_scalar (ds : list Z) (p : nat) (i : Z) (x y : list V) : Prop :=
    let ods := firstn p ds ++ skipn (S p) ds in
    zlen y = prod ods /\
    forall idx, inside ods idx ->
      el d ods y idx = el d ds x (firstn p idx ++ [from_back (coord p ds) i] ++ skipn p idx).

  (** GatherElements: the indices [q] have the dimensions [ods] of the result. *)
  Definition gathered_elements (ds ods : list Z) (p : nat) (q : list Z) (x y : list V) : Prop :=
    zlen y = prod ods /\
    forall idx, inside ods idx ->
      el d ods y idx = el d ds x (set_at p (from_back (coord p ds) (el 0 ods q idx)) idx).

  (** Concat along [p]: the elements of each operand come after those of the
      operands before it. *)
  Definition concatenated (p : nat) (ops : list (list Z * list V)) (ods : list Z) (y : list V) : Prop :=
    zlen y = prod ods /\
    forall before ds x after idx, ops = before ++ (ds, x) :: after -> inside ds idx ->
      el d ods y (set_at p (fold_right Z.add 0 (map (fun o => coord p (fst o)) before) + coord p idx) idx) = el d ds x idx.

  (** Tile. *)
  Fixpoint map2 (f : Z -> Z -> Z) (a b : list Z) : list Z :=
    match a, b with u :: a', v :: b' => f u v :: map2 f a' b' | _, _ => [] end.
  Definition tiled (ds reps : list Z) (x y : list V) : Prop :=
    let ods := map2 Z.mul reps ds in
    zlen y = prod ods /\ forall idx, inside ods idx -> el d ods y idx = el d ds x (map2 Z.modulo idx ds).

  (** Transpose. *)
  Definition permuted (perm : list nat) (l : list Z) : list Z := map (fun p => coord p l) perm.
  Definition transposed_nd (ds : list Z) (perm : list nat) (x y : list V) : Prop :=
    let ods := permuted perm ds in
    zlen y = prod ods /\ forall idx, inside ds idx -> el d ods y (permuted perm idx) = el d ds x idx.
End Ops.

(** All coordinates, in row-major order. *)
Fixpoint all_indices (ds : list Z) : list (list Z) :=
  match ds with
  | [] => [[]]
  | n :: r => flat_map (fun i => map (cons i) (all_indices r)) (tab n (fun k => k))
  end.

(** Reduce*: the elements whose coordinates agree with [idx] outside the axes.
    The result keeps the reduced axes, with dimension one (keepdims; without
    it the elements are the same, in the same order). *)
Fixpoint agree (p : nat) (axes : list nat) (idx jdx : list Z) : bool :=
  match idx, jdx with
  | i :: idx', j :: jdx' => (existsb (Nat.eqb p) axes || (i =? j)) && agree (S p) axes idx' jdx'
  | _, _ => true
  end.
Fixpoint reduced_dims (p : nat) (axes : list nat) (ds : list Z) : list Z :=
  match ds with [] => [] | n :: r => (if existsb (Nat.eqb p) axes then 1 else n) :: reduced_dims (S p) axes r end.
Definition reduced (N : num) (k : rkind) (ds : list Z) (axes : list nat) (x y : list (T N)) : Prop :=
  let ods := reduced_dims 0 axes ds in
  zlen y = prod ods /\
  forall idx, inside ods idx ->
    el (n0 N) ods y idx = red_value N k (map (el (n0 N) ds x) (filter (agree 0 axes idx) (all_indices ds))).

(** Element-wise operators with multidirectional (numpy) broadcasting: shapes
    are aligned on the right and dimensions equal to one are stretched. *)
Definition aligned (ds idx : list Z) : list Z :=
  map (fun ni => if fst ni =? 1 then 0 else snd ni) (combine ds (skipn (length idx - length ds) idx)).
(** The dimension of an operand at position [q] of the result. *)
Definition aligned_dim (ods ds : list Z) (q : nat) : Z :=
  if (q <? length ods - length ds)%nat then 1 else coord (q - (length ods - length ds)) ds.
Definition broadcast_shape (dss : list (list Z)) (ods : list Z) : Prop :=
  (forall ds, In ds dss -> (length ds <= length ods)%nat) /\
  (exists ds, In ds dss /\ length ds = length ods) /\
  forall q, (q < length ods)%nat ->
    (forall ds, In ds dss -> aligned_dim ods ds q = 1 \/ aligned_dim ods ds q = coord q ods) /\
    exists ds, In ds dss /\ aligned_dim ods ds q = coord q ods.
(** [op] is applied from left to right to the aligned elements. *)
Definition elementwise {V} (d : V) (op : V -> V -> V) (ops : list (list Z * list V)) (ods : list Z) (y : list V) : Prop :=
  zlen y = prod ods /\
  forall idx, inside ods idx ->
    el d ods y idx =
    match map (fun o => el d (fst o) (snd o) (aligned (fst o) idx)) ops with
    | [] => d
    | v :: vs => fold_left op vs v
    end.

(** Softmax: from opset 13 along one axis; before, the tensor is flattened to
    two dimensions at the axis, so along all dimensions from there on. *)
Definition softmax_axes (opset : Z) (ds : list Z) (axis : option Z) : list nat :=
  if opset <? 13
  then let p := axis_pos ds (match axis with Some a => a | None => 1 end) in seq p (length ds - p)
  else [axis_pos ds (match axis with Some a => a | None => -1 end)].
Definition softmaxed (N : num) (ds : list Z) (axes : list nat) (x y : list (T N)) : Prop :=
  zlen y = prod ds /\
  forall idx, inside ds idx ->
    el (n0 N) ds y idx =
    ndiv N (nexp N (el (n0 N) ds x idx))
      (fold_left (nadd N) (map (fun jdx => nexp N (el (n0 N) ds x jdx)) (filter (agree 0 axes idx) (all_indices ds))) (n0 N)).
(** Axes of a Reduce node: none means all. *)
Definition reduced_axes (ds : list Z) (axes : list Z) : list nat :=
  match axes with [] => seq 0 (length ds) | _ => map (axis_pos ds) axes end.
