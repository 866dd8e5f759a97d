(** * ONNX Conv, MaxPool, AveragePool and GlobalAveragePool on images: what the
    ONNX operator documentation says, with no reference to the layers. *)
From Coq Require Import ZArith List Lia Bool.
Import ListNotations.
Open Scope Z_scope.
From Verif Require Import CMem Tensor Num Pooling.

(** The attributes of a node, as written in the file ([None]: absent). *)
Inductive auto_pad := NotSet | AutoValid | AutoUpper | AutoLower.
Record window_node := mkNode {
  w_kernel : option (list Z); w_strides : option (list Z); w_dilations : option (list Z);
  w_group : option Z; w_auto : auto_pad; w_pads : option (list Z) }.
Definition or_default {A} (o : option A) (v : A) : A := match o with Some a => a | None => v end.

(** Padding before and after along one axis of length [n]. *)
Definition same_total (n k s d : Z) : Z := Z.max 0 ((- (- n / s) - 1) * s + ((k - 1) * d + 1) - n).
Definition onnx_pads (a : auto_pad) (before after n k s d : Z) : Z * Z :=
  match a with
  | NotSet => (before, after)
  | AutoValid => (0, 0)
  | AutoUpper => let t := same_total n k s d in (t / 2, t - t / 2)
  | AutoLower => let t := same_total n k s d in (t - t / 2, t / 2)
  end.
(** Length of the result along that axis (ceil_mode 0). *)
Definition onnx_length (n : Z) (pads : Z * Z) (k s d : Z) : Z := (n + fst pads + snd pads - ((k - 1) * d + 1)) / s + 1.

(** Image extended by zeros. *)
Definition pixel {V} (z : V) (H W : Z) (x : list V) (c i j : Z) : V :=
  if (0 <=? i) && (i <? H) && (0 <=? j) && (j <? W) then at3 z H W x c i j else z.
Definition sum3 (N : num) (A B C : Z) (t : Z -> Z -> Z -> T N) : T N :=
  fold_left (nadd N) (tab3 A B C t) (n0 N).
(** Conv: [M] filters of [C / g] channels; filter m reads the channels of its
    group.  Weights are indexed (filter, channel, row, column). *)
Definition convolved (N : num) (g M C H W kh kw sh sw dh dw top left OH OW : Z) (w b x y : list (T N)) : Prop :=
  zlen y = M * OH * OW /\
  forall m i j, 0 <= m < M -> 0 <= i < OH -> 0 <= j < OW ->
    at3 (n0 N) OH OW y m i j =
    nadd N (sum3 N (C / g) kh kw (fun p h q =>
              nmul N (pixel (n0 N) H W x (m / (M / g) * (C / g) + p) (i * sh + h * dh - top) (j * sw + q * dw - left))
                     (nthZ (n0 N) w (((m * (C / g) + p) * kh + h) * kw + q))))
           (nthZ (n0 N) b m).

(** The elements of the image below the window of (i, j). *)
Definition cells {V} (z : V) (H W : Z) (x : list V) (kh kw sh sw dh dw top left c i j : Z) : list V :=
  flat_map (fun h => flat_map (fun q =>
    let a := i * sh + h * dh - top in let b := j * sw + q * dw - left in
    if (0 <=? a) && (a <? H) && (0 <=? b) && (b <? W) then [at3 z H W x c a b] else []) (zrange kw)) (zrange kh).
Definition max_pooled (N : num) (C H W kh kw sh sw dh dw top left OH OW : Z) (x y : list (T N)) : Prop :=
  zlen y = C * OH * OW /\
  forall c i j, 0 <= c < C -> 0 <= i < OH -> 0 <= j < OW ->
    let l := cells (n0 N) H W x kh kw sh sw dh dw top left c i j in
    let v := at3 (n0 N) OH OW y c i j in
    In v l /\ forall u, In u l -> nlt N v u = false.
(** [count_include_pad]: divide by the number of cells of the window, padding included. *)
Definition average_pooled (N : num) (count_include_pad : bool) (C H W kh kw sh sw dh dw top left OH OW : Z) (x y : list (T N)) : Prop :=
  zlen y = C * OH * OW /\
  forall c i j, 0 <= c < C -> 0 <= i < OH -> 0 <= j < OW ->
    let l := cells (n0 N) H W x kh kw sh sw dh dw top left c i j in
    at3 (n0 N) OH OW y c i j =
    ndiv N (fold_left (nadd N) l (n0 N)) (nofZ N (if count_include_pad then kh * kw else zlen l)).
