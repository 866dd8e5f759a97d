(** * Reduce layers (sum, mean, product, max, min) and Softmax. *)
From Coq Require Import ZArith List Lia Bool.
Import ListNotations.
Open Scope Z_scope.
From Verif Require Import CMem Tensor Num Activation.

Inductive rkind := RSum | RMean | RProd | RMax | RMin.

Section Reduce.
  Context (N : num).
  Notation V := (T N).
  Notation mem := (mem V).

  (** reduce/Reduce.py:66-79 (and the same lines of the five subclasses): output
      dimensions; [axes] is the tuple of axes, 1 = channels, 2 = rows, 3 = columns. *)
  Definition in_axes (a : Z) (axes : list Z) : bool := existsb (Z.eqb a) axes.
  Definition empty_axes (axes : list Z) : bool := match axes with [] => true | _ => false end.
  Definition red_dim (a n : Z) (axes : list Z) (noop : bool) : Z :=
    if in_axes a axes || (empty_axes axes && negb noop) then 1 else n.

  (** One accumulation statement of template_Reduce.c.tpl:
      "x > acc ? acc = x", "x < acc ? acc = x", "acc += x", "acc *= x". *)
  Definition racc (k : rkind) (u v : V) : V :=
    match k with
    | RMax => if nlt N u v then v else u
    | RMin => if nlt N v u then v else u
    | RProd => nmul N u v
    | RSum | RMean => nadd N u v
    end.
  (** The statement on tensor_temp[p]; [cmp] is the cell the comparison reads
      (Max and Min), [pos] the cell of the source. *)
  Definition racc_temp (k : rkind) (src : bname) (cmpb : bname) (pos p : Z) (m : mem) : option mem :=
    u <- rd m Temp p ;;
    match k with
    | RMax => c <- rd m cmpb pos ;; if nlt N u c then (v <- rd m src pos ;; wr m Temp p v) else Some m
    | RMin => c <- rd m cmpb pos ;; if nlt N c u then (v <- rd m src pos ;; wr m Temp p v) else Some m
    | _ => v <- rd m src pos ;; wr m Temp p (racc k u v)
    end.
  (** starting_value: Reduce.py:165-170 and the Max/Min branches. *)
  Definition rstart (k : rkind) (src : bname) (first : Z) (m : mem) : option V :=
    match k with
    | RSum | RMean => Some (n0 N)
    | RProd => Some (n1 N)
    | RMax | RMin => rd m src first
    end.
  Definition rdivide (k : rkind) (nb : Z) (p : Z) (m : mem) : option mem :=
    match k with
    | RMean => u <- rd m Temp p ;; wr m Temp p (ndiv N u (nofZ N nb))
    | _ => Some m
    end.

  (** template_Reduce.c.tpl, section "all". *)
  Definition reduce_all (k : rkind) (src out : bname) (size : Z) (act : V -> V) (m : mem) : option mem :=
    s0 <- rstart k src 0 m ;;
    s <- for_ size (fun q s => v <- rd m src q ;; Some (racc k s v)) s0 ;;
    wr m out 0 (act (match k with RMean => ndiv N s (nofZ N size) | _ => s end)).
  (** section "one" (D1, D2: output dimensions, R: reduced dimension). *)
  Definition reduce_one (k : rkind) (src out : bname) (D1 D2 R : Z) (pos : Z -> Z -> Z -> Z) (first : Z -> Z -> Z)
      (size : Z) (act : V -> V) : mem -> option mem :=
    via_temp (for_ D1 (fun f => for_ D2 (fun i m =>
        s0 <- rstart k src (first f i) m ;;
        m0 <- wr m Temp (i + D2 * f) s0 ;;
        m1 <- for_ R (fun j => racc_temp k src src (pos f i j) (i + D2 * f)) m0 ;;
        rdivide k R (i + D2 * f) m1))) size act out.
  (** section "two": the comparisons of Max and Min read ctx->output_path. *)
  Definition reduce_two (k : rkind) (src out : bname) (D R1 R2 : Z) (pos : Z -> Z -> Z -> Z) (first : Z -> Z)
      (size : Z) (act : V -> V) : mem -> option mem :=
    via_temp (for_ D (fun f m =>
        s0 <- rstart k src (first f) m ;;
        m0 <- wr m Temp f s0 ;;
        m1 <- for_ R1 (fun i => for_ R2 (fun j => racc_temp k src out (pos f i j) f)) m0 ;;
        rdivide k (R1 * R2) f m1)) size act out.
  (** section "none". *)
  Definition reduce_none (out : bname) (size : Z) (act : V -> V) : mem -> option mem :=
    for_ size (fun q m => v <- rd m out q ;; wr m out q (act v)).

  (** reduce/Reduce.py:135-256. *)
  Definition reduce_c (k : rkind) (src out : bname) (C H W : Z) (axes : list Z) (noop : bool) (act : V -> V) : mem -> option mem :=
    let OC := red_dim 1 C axes noop in let OH := red_dim 2 H axes noop in let OW := red_dim 3 W axes noop in
    let size := OC * OH * OW in
    match in_axes 1 axes, in_axes 2 axes, in_axes 3 axes with
    | false, false, false => if noop then reduce_none out size act else reduce_all k src out (C * H * W) act
    | true, false, false =>
        reduce_one k src out OH OW C (fun f i j => i + W * (f + H * j)) (fun f i => i + W * f) size act
    | false, true, false =>
        reduce_one k src out OC OW H (fun f i j => i + W * (j + H * f)) (fun f i => i + W * H * f) size act
    | false, false, true =>
        reduce_one k src out OC OH W (fun f i j => j + W * (i + H * f)) (fun f i => W * (i + H * f)) size act
    | true, true, false =>
        reduce_two k src out OW C H (fun f i j => f + W * (j + H * i)) (fun f => W * f) size act
    | true, false, true =>
        reduce_two k src out OH C W (fun f i j => j + W * (f + H * i)) (fun f => H * f) size act
    | false, true, true =>
        reduce_two k src out OC H W (fun f i j => j + W * (i + H * f)) (fun f => C * f) size act
    | true, true, true => reduce_all k src out (C * H * W) act
    end.

  (** ** Specification: the cells of [x] merged into output cell (c,h,w), in
      row-major order, and the value they are reduced to. *)
  Definition red_cells (C H W : Z) (rc rh rw : bool) (x : list V) (c h w : Z) : list V :=
    tab3 (if rc then C else 1) (if rh then H else 1) (if rw then W else 1) (fun a b e =>
      at3 (n0 N) H W x (if rc then a else c) (if rh then b else h) (if rw then e else w)).
  Definition red_value (k : rkind) (l : list V) : V :=
    match k with
    | RSum => fold_left (nadd N) l (n0 N)
    | RMean => ndiv N (fold_left (nadd N) l (n0 N)) (nofZ N (zlen l))
    | RProd => fold_left (nmul N) l (n1 N)
    | RMax => match l with [] => n0 N | v :: l' => fold_left (np_maximum N) l' v end
    | RMin => match l with [] => n0 N | v :: l' => fold_left (np_minimum N) l' v end
    end.
  (** Python: reduce_*/Reduce*.py forward_path_layer (numpy's order of summation
      is not modelled; the activation is not applied).  np.<f>(x, axis=axes) on
      the (1,C,H,W) array; axes () means all axes unless noop. *)
  Definition reduce_py (k : rkind) (C H W : Z) (axes : list Z) (noop : bool) (x : list V) : list V :=
    if empty_axes axes && noop then x
    else
      let all := empty_axes axes in
      tab3 (red_dim 1 C axes noop) (red_dim 2 H axes noop) (red_dim 3 W axes noop) (fun c h w =>
        red_value k (red_cells C H W (all || in_axes 1 axes) (all || in_axes 2 axes) (all || in_axes 3 axes) x c h w)).

  (** ** Softmax: templates/layers/template_Softmax.c.tpl,
      softmax/SoftmaxDefault.py:39-82.  [one_dimension] is the constructor's
      test "size in output_shape" (Softmax.py:50). *)
  Definition softmax_1d (src out : bname) (size : Z) (act : V -> V) (m : mem) : option mem :=
    s <- for_ size (fun i s => v <- rd m src i ;; Some (nadd N s (nexp N v))) (n0 N) ;;
    for_ size (fun j m =>
      v <- rd m src j ;; m1 <- wr m out j (ndiv N (nexp N v) s) ;;
      u <- rd m1 out j ;; wr m1 out j (act u)) m.
  Definition softmax_sums (src : bname) (D1 D2 R : Z) (pos : Z -> Z -> Z -> Z) : mem -> option mem :=
    for_ D1 (fun f => for_ D2 (fun i m =>
      m0 <- wr m Temp (i + D2 * f) (n0 N) ;;
      for_ R (fun j m => u <- rd m Temp (i + D2 * f) ;; v <- rd m src (pos f i j) ;; wr m Temp (i + D2 * f) (nadd N u (nexp N v))) m0)).
  Definition softmax_div (src out : bname) (C H W : Z) (sidx : Z -> Z -> Z -> Z) : mem -> option mem :=
    for_ C (fun f => for_ H (fun i => for_ W (fun j m =>
      v <- rd m src (j + W * (i + H * f)) ;; s <- rd m Temp (sidx f i j) ;;
      wr m out (j + W * (i + H * f)) (ndiv N (nexp N v) s)))).
  Definition softmax_nd (src out : bname) (C H W axis : Z) (m : mem) : option mem :=
    if axis =? 1 then
      m1 <- softmax_sums src H W C (fun f i j => i + W * (f + H * j)) m ;; softmax_div src out C H W (fun f i j => j + W * i) m1
    else if axis =? 2 then
      m1 <- softmax_sums src C W H (fun f i j => i + W * (j + H * f)) m ;; softmax_div src out C H W (fun f i j => j + W * f) m1
    else
      m1 <- softmax_sums src C H W (fun f i j => j + W * (i + H * f)) m ;; softmax_div src out C H W (fun f i j => i + H * f) m1.
  Definition one_dimension (C H W : Z) : bool :=
    let size := C * H * W in existsb (Z.eqb size) [1; C; H; W].
  Definition softmax_c (src out : bname) (C H W axis : Z) (act : V -> V) : mem -> option mem :=
    if one_dimension C H W then softmax_1d src out (C * H * W) act else softmax_nd src out C H W axis.
  (** Softmax.py:99-111 *)
  Definition softmax_py (C H W axis : Z) (x : list V) : list V :=
    if one_dimension C H W then
      let e := map (nexp N) x in map (fun v => ndiv N v (fold_left (nadd N) e (n0 N))) e
    else tab3 C H W (fun c h w =>
      ndiv N (nexp N (at3 (n0 N) H W x c h w))
        (fold_left (nadd N) (map (nexp N) (red_cells C H W (axis =? 1) (axis =? 2) (axis =? 3) x c h w)) (n0 N))).
End Reduce.
