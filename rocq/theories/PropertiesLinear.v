(** * Properties C11-C13, C28: Dense, MatMul, Gemm, batch normalisation.
    Sums are left-to-right ([nsum], Num.v).  [ring_laws]/[field_laws] appear
    only where C and Python associate the operations differently; they hold of
    the reals (RealInst.v), not of floating-point numbers. *)
From Coq Require Import ZArith List Lia Bool.
Import ListNotations.
Open Scope Z_scope.
From Verif Require Import CMem Tensor Num Linear LinearProofs NumInst PropertiesMovement.

(** ** C11: output [i] is act(sum_j x_j * W_{j,i} + b_i); no law is needed. *)
Theorem C11_dense : forall (N : num) src out prev_size size w b act x,
  out <> Temp -> src <> Temp -> 0 <= prev_size -> 0 <= size ->
  zlen x = prev_size -> zlen w = prev_size * size -> zlen b = size ->
  layer_ok (dense_c N src out prev_size size w b act) [(src, x)] out size size
    (tab size (fun i => act (nadd N
       (nsum N prev_size (fun j => nmul N (nthZ (n0 N) x j) (at2 (n0 N) size w j i)))
       (nthZ (n0 N) b i)))).
Proof. exact dense_ok. Qed.
Print Assumptions C11_dense.

Example C11_example :
  result_of (dense_c Znum (Out 0) (Out 0) 3 2 [1;2;3;4;5;6] [10;20] (fun v => v)
    (mem_of [(Out 0, [1;10;100]); (Temp, [0;0;0])])) (Out 0) 2 = Some [541; 662].
Proof. reflexivity. Qed.

(** ** C12: same number of channels on both sides. *)
Theorem C12_matmul : forall (N : num) left right out C OH OW K act x y,
  out <> Temp -> left <> Temp -> right <> Temp -> 0 <= C -> 0 <= OH -> 0 <= OW -> 0 <= K ->
  zlen x = C * OH * K -> zlen y = C * K * OW ->
  layer_ok (matmul_c N left right out C OH OW K act) [(left, x); (right, y)] out (C * OH * OW) (C * OH * OW)
    (map act (tab3 C OH OW (fun f i j =>
       nsum N K (fun k => nmul N (at3 (n0 N) OH K x f i k) (at3 (n0 N) K OW y f k j))))).
Proof.
  intros N left right out C OH OW K act x y Ho Hl Hr HC HH HW HK Hx Hy.
  pose proof (matmul_ok N left right out C OH OW K act x y Ho Hl Hr HC HH HW HK Hx Hy) as G.
  unfold matmul_py in G. replace (tab3 C OH OW _) with
    (tab3 C OH OW (fun f i j => nsum N K (fun k => nmul N (at3 (n0 N) OH K x f i k)
        (at3 (n0 N) K OW y (if C =? 1 then 0 else f) k j)))); [exact G|].
  apply tab3_ext; auto. intros c h w Hc _ _. apply nsum_ext. intros k _. f_equal. f_equal.
  destruct (Z.eqb_spec C 1); lia.
Qed.
Print Assumptions C12_matmul.

Theorem C12_matmul_python : forall (N : num) C OH OW K act x y, 0 <= C -> 0 <= OH -> 0 <= OW ->
  matmul_py N C C OH OW K act x y =
  map act (tab3 C OH OW (fun f i j =>
       nsum N K (fun k => nmul N (at3 (n0 N) OH K x f i k) (at3 (n0 N) K OW y f k j)))).
Proof.
  intros. unfold matmul_py. f_equal. apply tab3_ext; auto. intros c h w Hc _ _. apply nsum_ext. intros k _.
  f_equal. f_equal. destruct (Z.eqb_spec C 1); lia.
Qed.
Print Assumptions C12_matmul_python.

Example C12_example :
  result_of (matmul_c Znum (Out 0) (Cst 0) (Out 0) 2 1 2 2 (fun v => v)
    (mem_of [(Out 0, [1;2;3;4]); (Cst 0, [1;0;0;1;0;1;1;0]); (Temp, [0;0;0;0])])) (Out 0) 4 = Some [1;2;4;3].
Proof. reflexivity. Qed.

(** A right operand with a single channel (a plain matrix), which the
    constructor accepts (matmul/MatMul.py:53-62 checks only the inner
    dimensions) and numpy broadcasts, is read out of bounds by the C code when
    the left operand has two channels. *)
Theorem C12_matmul_broadcast_refuted : exists C OH OW K (x y : list Z),
  0 < C /\ zlen x = C * OH * K /\ zlen y = 1 * K * OW /\
  matmul_c Znum (Out 0) (Cst 0) (Out 1) C OH OW K (fun v => v)
    (mem_of [(Out 0, x); (Cst 0, y); (Out 1, [0;0]); (Temp, [0;0])]) = None /\
  matmul_py Znum C 1 OH OW K (fun v => v) x y = [15; 35].
Proof. exists 2, 1, 1, 1, [3; 7], [5]. repeat split. Qed.
Print Assumptions C12_matmul_broadcast_refuted.

(** ** C13.  [m_], [n], [k]: rows, columns and inner dimension of the product;
    the left operand is stored as (m_,k) or transposed as (k,m_), the weights as
    (k,n) or transposed as (n,k). *)
Theorem C13_gemm : forall (N : num), ring_laws N -> forall src out tA tB alpha beta m_ n k w b act x,
  out <> Temp -> src <> Temp -> 0 <= m_ -> 0 <= n -> 0 <= k ->
  zlen x = m_ * k -> zlen w = k * n -> zlen b = n ->
  layer_ok (gemm_c N src out tA tB alpha beta m_ n k w b act) [(src, x)] out (m_ * n) (m_ * n)
    (tab2 m_ n (fun i j =>
       let A i p := if tA then at2 (n0 N) m_ x p i else at2 (n0 N) k x i p in
       let B p j := if tB then at2 (n0 N) k w j p else at2 (n0 N) n w p j in
       act (nadd N (scaled alpha (nsum N k (fun p => nmul N (A i p) (B p j))))
                   (scaled beta (nthZ (n0 N) b j))))).
Proof.
  intros N L src out tA tB alpha beta m_ n k w b act x Ho Hs Hm Hn Hk Hx Hw Hb.
  pose proof (gemm_ok N src out tA tB alpha beta m_ n k w b act x (or_intror L) Ho Hs Hm Hn Hk Hx Hw Hb) as G.
  unfold gemm_py in G. destruct tA, tB; exact G.
Qed.
Print Assumptions C13_gemm.

(** With alpha = 1 the code computes exactly these operations in this order: no law
    of arithmetic is needed (floating-point numbers included). *)
Theorem C13_gemm_any_arithmetic : forall (N : num) src out tA tB beta m_ n k w b act x,
  out <> Temp -> src <> Temp -> 0 <= m_ -> 0 <= n -> 0 <= k ->
  zlen x = m_ * k -> zlen w = k * n -> zlen b = n ->
  layer_ok (gemm_c N src out tA tB None beta m_ n k w b act) [(src, x)] out (m_ * n) (m_ * n)
    (tab2 m_ n (fun i j =>
       let A i p := if tA then at2 (n0 N) m_ x p i else at2 (n0 N) k x i p in
       let B p j := if tB then at2 (n0 N) k w j p else at2 (n0 N) n w p j in
       act (nadd N (nsum N k (fun p => nmul N (A i p) (B p j))) (scaled beta (nthZ (n0 N) b j))))).
Proof.
  intros N src out tA tB beta m_ n k w b act x Ho Hs Hm Hn Hk Hx Hw Hb.
  pose proof (gemm_ok N src out tA tB None beta m_ n k w b act x (or_introl eq_refl) Ho Hs Hm Hn Hk Hx Hw Hb) as G.
  unfold gemm_py in G. destruct tA, tB; exact G.
Qed.
Print Assumptions C13_gemm_any_arithmetic.

Theorem C13_gemm_python : forall (N : num) tA tB alpha beta m_ n k w b act x,
  gemm_py N tA tB alpha beta (if tA then k else m_) (if tA then m_ else k)
     (if tB then n else k) (if tB then k else n) w b act x =
  tab2 m_ n (fun i j =>
     let A i p := if tA then at2 (n0 N) m_ x p i else at2 (n0 N) k x i p in
     let B p j := if tB then at2 (n0 N) k w j p else at2 (n0 N) n w p j in
     act (nadd N (scaled alpha (nsum N k (fun p => nmul N (A i p) (B p j))))
                 (scaled beta (nthZ (n0 N) b j)))).
Proof. intros. unfold gemm_py. destruct tA, tB; reflexivity. Qed.
Print Assumptions C13_gemm_python.

Example C13_example :
  ring_laws Znum /\
  result_of (gemm_c Znum (Out 0) (Out 0) true true (Some 2) (Some 3) 2 2 3 [1;2;3;4;5;6] [1;-1] (fun v => v)
    (mem_of [(Out 0, [1;0;0;1;1;1]); (Temp, repeat 0 6)])) (Out 0) 4 = Some [11; 17; 13; 19].
Proof. split; [exact Znum_ring|reflexivity]. Qed.

(** Two ways in which Gemm leaves the property: a bias of shape (1,) is accepted
    by the constructor (gemm/Gemm.py:139-147) and broadcast by numpy but read out
    of bounds by the C code; and alpha <> 1 with the default beta = 1 cannot even
    be constructed. *)
Theorem C13_gemm_scalar_bias_refuted : exists (w x : list Z) b,
  zlen b = 1 /\
  gemm_c Znum (Out 0) (Out 1) false false None None 1 2 1 w b (fun v => v)
    (mem_of [(Out 0, x); (Out 1, [0;0]); (Temp, [0;0])]) = None.
Proof. exists [1; 1], [5], [3]. split; reflexivity. Qed.
Print Assumptions C13_gemm_scalar_bias_refuted.

Theorem C13_gemm_constructor_refuted : forall alpha_is_int beta_is_int,
  gemm_check false true alpha_is_int beta_is_int = GemmIndexError.
Proof. exact (fun _ _ => eq_refl). Qed.
Print Assumptions C13_gemm_constructor_refuted.

(** ** C28.  Element [k] of channel [f]; no tensor_temp is used and the output
    array may be the input array. *)
Theorem C28_batch_normalisation : forall (N : num) src out C chsz scale mean var bias eps act x,
  0 <= C -> 0 <= chsz -> zlen x = C * chsz ->
  zlen scale = C -> zlen mean = C -> zlen var = C -> zlen bias = C ->
  layer_ok (batchnorm_c N src out C chsz scale mean var bias eps act) [(src, x)] out 0 (C * chsz)
    (map act (tab2 C chsz (fun f k =>
       nadd N (ndiv N (nmul N (nthZ (n0 N) scale f) (nsub N (at2 (n0 N) chsz x f k) (nthZ (n0 N) mean f)))
                      (nsqrt N (nadd N (nthZ (n0 N) var f) eps)))
              (nthZ (n0 N) bias f)))).
Proof. exact batchnorm_c_ok. Qed.
Print Assumptions C28_batch_normalisation.

(** The Python reference multiplies by the scale after dividing. *)
Theorem C28_batch_normalisation_python : forall (N : num), field_laws N ->
  forall C chsz scale mean var bias eps act x, 0 <= C -> 0 <= chsz ->
  batchnorm_py N C chsz scale mean var bias eps act x =
  map act (tab2 C chsz (fun f k =>
       nadd N (ndiv N (nmul N (nthZ (n0 N) scale f) (nsub N (at2 (n0 N) chsz x f k) (nthZ (n0 N) mean f)))
                      (nsqrt N (nadd N (nthZ (n0 N) var f) eps)))
              (nthZ (n0 N) bias f))).
Proof.
  intros N F C chsz scale mean var bias eps act x HC Hc. unfold batchnorm_py. f_equal. apply tab2_ext; auto.
  intros f k _ _. symmetry. apply (bn_bn_py N F).
Qed.
Print Assumptions C28_batch_normalisation_python.

Example C28_example :
  field_laws Qcnum /\
  result_of (batchnorm_c Znum (Out 0) (Out 0) 2 2 [2;3] [1;1] [4;5] [10;20] 1 (fun v => v)
    (mem_of [(Out 0, [6;11;7;13])])) (Out 0) 4 = Some [12; 14; 23; 26].
Proof. split; [exact Qcnum_field|reflexivity]. Qed.
