(** * ONNX Gemm, MatMul and BatchNormalization: what the ONNX operator
    documentation says, with no reference to the layers of the tool. *)
From Coq Require Import ZArith List Lia Bool.
Import ListNotations.
Open Scope Z_scope.
From Verif Require Import CMem Num OnnxSpec.

(** Gemm: Y = alpha * A' * B' + beta * C, A' (B') being A (B) or its transpose;
    C is unidirectionally broadcastable to Y. *)
Definition gemm_value (N : num) (tA tB : bool) (alpha beta : T N) (M Nn K : Z) (cdims : list Z) (a b c y : list (T N)) : Prop :=
  zlen y = M * Nn /\
  forall i j, 0 <= i < M -> 0 <= j < Nn ->
    let A p := if tA then el (n0 N) [K; M] a [p; i] else el (n0 N) [M; K] a [i; p] in
    let B p := if tB then el (n0 N) [Nn; K] b [j; p] else el (n0 N) [K; Nn] b [p; j] in
    el (n0 N) [M; Nn] y [i; j] =
    nadd N (nmul N alpha (fold_left (nadd N) (tab K (fun p => nmul N (A p) (B p))) (n0 N)))
           (nmul N beta (el (n0 N) cdims c (aligned cdims [i; j]))).

(** MatMul (numpy.matmul): a vector on the left is a row, a vector on the right
    a column; the last two dimensions are those of matrices, the others
    (the stack) broadcast. *)
Definition as_left (ds : list Z) : list Z := match ds with [k] => [1; k] | _ => ds end.
Definition as_right (ds : list Z) : list Z := match ds with [k] => [k; 1] | _ => ds end.
(** Dimensions of the result: the row and the column are dropped again. *)
Definition product_dims (da db stack : list Z) (M Nn : Z) : list Z :=
  stack ++ (match da with [_] => [] | _ => [M] end) ++ (match db with [_] => [] | _ => [Nn] end).
Definition multiplied (N : num) (sa sb stack : list Z) (M K Nn : Z) (a b y : list (T N)) : Prop :=
  zlen y = prod stack * M * Nn /\
  forall q i j, inside stack q -> 0 <= i < M -> 0 <= j < Nn ->
    el (n0 N) (stack ++ [M; Nn]) y (q ++ [i; j]) =
    fold_left (nadd N) (tab K (fun p => nmul N (el (n0 N) (sa ++ [M; K]) a (aligned sa q ++ [i; p]))
                                               (el (n0 N) (sb ++ [K; Nn]) b (aligned sb q ++ [p; j])))) (n0 N).

(** BatchNormalization (training_mode 0): the second dimension is the channel. *)
Definition batch_normalised (N : num) (ds : list Z) (scale bias mean var : list (T N)) (eps : T N) (x y : list (T N)) : Prop :=
  zlen y = prod ds /\
  forall idx, inside ds idx ->
    let c := coord 1 idx in
    el (n0 N) ds y idx =
    nadd N (ndiv N (nmul N (nthZ (n0 N) scale c) (nsub N (el (n0 N) ds x idx) (nthZ (n0 N) mean c)))
                   (nsqrt N (nadd N (nthZ (n0 N) var c) eps)))
           (nthZ (n0 N) bias c).
