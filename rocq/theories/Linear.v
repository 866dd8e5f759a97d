(** * Dense, MatMul, Gemm and batch normalisation. *)
From Coq Require Import ZArith List Lia Bool.
Import ListNotations.
Open Scope Z_scope.
From Verif Require Import CMem Tensor Num.

Section Linear.
  Context (N : num).
  Notation V := (T N).
  Notation mem := (mem V).

  (** ** Dense.  templates/layers/template_Dense.c.tpl:2-16.
      The activation is applied to [dotproduct] (dense/DenseDefault.py:37,54). *)
  Definition dense_c (src out : bname) (prev_size size : Z) (w b : list V) (act : V -> V) : mem -> option mem :=
    via_temp
      (for_ size (fun i m =>
         dot <- for_ prev_size (fun j dot =>
                  x <- rd m src j ;; y <- rdl w (j * size + i) ;; Some (nadd N dot (nmul N x y))) (n0 N) ;;
         bi <- rdl b i ;;
         wr m Temp i (act (nadd N dot bi))))
      size (fun v => v) out.

  (** dense/Dense.py:91-99: act(np.dot(x, W) + b), W of shape (prev_size, size). *)
  Definition dense_py (prev_size size : Z) (w b : list V) (act : V -> V) (x : list V) : list V :=
    tab size (fun i => act (nadd N (nsum N prev_size (fun j => nmul N (nthZ (n0 N) x j) (at2 (n0 N) size w j i)))
                                  (nthZ (n0 N) b i))).

  (** ** MatMul.  templates/layers/template_MatMul.c.tpl:2-19 (accumulates in tensor_temp). *)
  Definition matmul_c (left right out : bname) (C OH OW K : Z) (act : V -> V) : mem -> option mem :=
    via_temp
      (for_ C (fun f => for_ OH (fun i => for_ OW (fun j m =>
         m1 <- wr m Temp (j + OW * (i + OH * f)) (n0 N) ;;
         for_ K (fun k m =>
           t <- rd m Temp (j + OW * (i + OH * f)) ;;
           x <- rd m left (k + K * (i + OH * f)) ;;
           y <- rd m right (j + OW * (k + K * f)) ;;
           wr m Temp (j + OW * (i + OH * f)) (nadd N t (nmul N x y))) m1))))
      (C * OH * OW) act out.

  (** matmul/MatMul.py:78-94: numpy.matmul on (C,OH,K) and (CR,K,OW); numpy
      broadcasts a right operand with CR = 1. *)
  Definition matmul_py (C CR OH OW K : Z) (act : V -> V) (x y : list V) : list V :=
    map act (tab3 C OH OW (fun f i j =>
      nsum N K (fun k => nmul N (at3 (n0 N) OH K x f i k)
                                (at3 (n0 N) K OW y (if CR =? 1 then 0 else f) k j)))).

  (** ** Gemm.  gemm/GemmDefault.py:38-43,177-203; templates/layers/Gemm/*.tpl.
      [alpha], [beta]: None when equal to 1 (gemm/Gemm.py:61-68). *)
  Definition scaled (alpha : option V) (x : V) : V :=
    match alpha with None => x | Some a => nmul N a x end.
  Definition gemm_addrA (tA : bool) (m k i p : Z) : Z := if tA then p * m + i else i * k + p.
  Definition gemm_addrB (tB : bool) (n k p j : Z) : Z := if tB then j * k + p else p * n + j.
  Definition gemm_c (src out : bname) (tA tB : bool) (alpha beta : option V) (m_ n k : Z) (w b : list V)
      (act : V -> V) : mem -> option mem :=
    via_temp
      (fun mm =>
        m0 <- for_ (n * m_) (fun q mm => wr mm Temp q (n0 N)) mm ;;
        for_ m_ (fun i => for_ n (fun j mm =>
          output <- for_ k (fun p output =>
             x <- rd mm src (gemm_addrA tA m_ k i p) ;; y <- rdl w (gemm_addrB tB n k p j) ;;
             Some (nadd N output (nmul N (scaled alpha x) y))) (n0 N) ;;
          bj <- rdl b j ;;
          wr mm Temp (i * n + j) (act (nadd N output (scaled beta bj))))) m0)
      (m_ * n) (fun v => v) out.

  (** gemm/Gemm.py:163-181 for a bias of shape (n,): the input is reshaped to
      (ih, iw), the weights have shape (wh, ww); both are transposed on demand. *)
  Definition gemm_py (tA tB : bool) (alpha beta : option V) (ih iw wh ww : Z) (w b : list V) (act : V -> V)
      (x : list V) : list V :=
    let a i p := if tA then at2 (n0 N) iw x p i else at2 (n0 N) iw x i p in
    let wt p j := if tB then at2 (n0 N) ww w j p else at2 (n0 N) ww w p j in
    let rows := if tA then iw else ih in
    let inner := if tA then ih else iw in
    let cols := if tB then wh else ww in
    tab2 rows cols (fun i j => act (nadd N
      (scaled alpha (nsum N inner (fun p => nmul N (a i p) (wt p j))))
      (scaled beta (nthZ (n0 N) b j)))).

  (** gemm/Gemm.py:98-107: which (alpha, beta) the constructor accepts.
      [is_int] tells whether the Python number is an int. *)
  Inductive gemm_ctor := GemmOk | GemmIndexError | GemmTypeError.
  Definition gemm_check (alpha_is_1 beta_is_1 alpha_is_int beta_is_int : bool) : gemm_ctor :=
    let alpha_err := negb alpha_is_1 && alpha_is_int in
    if negb alpha_is_1 && beta_is_1 then GemmIndexError    (* self.beta[0] with beta == [] *)
    else if alpha_err || (negb alpha_is_1 && beta_is_int) then GemmTypeError
    else GemmOk.

  (** ** Batch normalisation.  templates/layers/template_BatchNormalization.c.tpl.
      Precedence: scale*(x - mean)/sqrt(var + eps) + bias, left to right. *)
  Definition bn (s mu va bi eps x : V) : V :=
    nadd N (ndiv N (nmul N s (nsub N x mu)) (nsqrt N (nadd N va eps))) bi.
  Definition batchnorm_c (src out : bname) (C chsz : Z) (scale mean var bias : list V) (eps : V) (act : V -> V)
      : mem -> option mem :=
    for_ C (fun f => for_ chsz (fun k m =>
      s <- rdl scale f ;; x <- rd m src (k + chsz * f) ;; mu <- rdl mean f ;; va <- rdl var f ;; bi <- rdl bias f ;;
      m1 <- wr m out (k + chsz * f) (bn s mu va bi eps x) ;;
      y <- rd m1 out (k + chsz * f) ;;
      wr m1 out (k + chsz * f) (act y))).
  (** batch_normalization/BatchNormalization.py:132-145:
      (x - mean) / sqrt(var + eps) * scale + bias. *)
  Definition bn_py (s mu va bi eps x : V) : V :=
    nadd N (nmul N (ndiv N (nsub N x mu) (nsqrt N (nadd N va eps))) s) bi.
  Definition batchnorm_py (C chsz : Z) (scale mean var bias : list V) (eps : V) (act : V -> V) (x : list V) : list V :=
    map act (tab2 C chsz (fun f k =>
      bn_py (nthZ (n0 N) scale f) (nthZ (n0 N) mean f) (nthZ (n0 N) var f) (nthZ (n0 N) bias f) eps
         (at2 (n0 N) chsz x f k))).
End Linear.
Arguments scaled {N}.
