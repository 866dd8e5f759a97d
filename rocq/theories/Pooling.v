(** * Pooling layers. *)
From Coq Require Import ZArith List Lia Bool.
Import ListNotations.
Open Scope Z_scope.
From Verif Require Import CMem Tensor Num Activation.

(** Pooling parameters: pooling/Pooling2D.py:53-79; both strides and both
    kernel sizes are equal. *)
Record pool := mkPool {
  p_C : Z; p_IH : Z; p_IW : Z; p_OH : Z; p_OW : Z; p_size : Z; p_stride : Z;
  p_top : Z; p_left : Z; p_bottom : Z; p_right : Z }.

Section Pooling.
  Context (N : num) (ninf : T N).     (* ninf: the value of -INFINITY *)
  Notation V := (T N).
  Notation mem := (mem V).

  (** templates/layers/template_Pooling2D.c.tpl; the local variables and the
      body of the innermost loop come from update_local_vars and
      specific_function of the two classes.  The row offset is pad_left and the
      column offset pad_top, as in the template. *)
  Definition pool_window {S} (P : pool) (src : bname) (f i j : Z) (step : V -> S -> S) (m : mem) (s0 : S) : option S :=
    for_ (p_size P) (fun h => for_ (p_size P) (fun w s =>
      let ii := i * p_stride P + h - p_left P in
      let jj := j * p_stride P + w - p_top P in
      if (0 <=? ii) && (ii <? p_IH P) && (0 <=? jj) && (jj <? p_IW P)
      then v <- rd m src (jj + p_IW P * (ii + p_IH P * f)) ;; Some (step v s)
      else Some s)) s0.

  (** max_pooling/MaxPooling2DDefault.py:37-52: max = -INFINITY;
      if (x > max) max = x;  [None] is -INFINITY, below every number. *)
  Definition max_step (v : V) (s : option V) : option V :=
    match s with None => Some v | Some u => if nlt N u v then Some v else Some u end.
  Definition max_result (s : option V) : V := match s with Some v => v | None => ninf end.
  Definition max_pool_c (P : pool) (src out : bname) (act : V -> V) : mem -> option mem :=
    via_temp (for_ (p_C P) (fun f => for_ (p_OH P) (fun i => for_ (p_OW P) (fun j m =>
        s <- pool_window P src f i j max_step m None ;;
        wr m Temp (j + p_OW P * (i + p_OH P * f)) (act (max_result s))))))
      (p_C P * p_OH P * p_OW P) (fun v => v) out.

  (** average_pooling/AveragePooling2DDefault.py:37-54: sum = 0; count = 0;
      sum += x; count++; the activation is applied to sum/count (see
      C32_activation_compound for the text "sum/count"). *)
  Definition avg_step (v : V) (s : V * Z) : V * Z := (nadd N (fst s) v, snd s + 1).
  Definition avg_pool_c (P : pool) (src out : bname) (act : V -> V) : mem -> option mem :=
    via_temp (for_ (p_C P) (fun f => for_ (p_OH P) (fun i => for_ (p_OW P) (fun j m =>
        s <- pool_window P src f i j avg_step m (n0 N, 0) ;;
        wr m Temp (j + p_OW P * (i + p_OH P * f)) (act (ndiv N (fst s) (nofZ N (snd s))))))))
      (p_C P * p_OH P * p_OW P) (fun v => v) out.

  (** ** Python: pooling/Pooling2D.py:139-162.  The input is zero-padded only
      when the four pads are non-zero; slices are clipped to the array.  The
      activation function is not applied. *)
  Definition zrange (n : Z) : list Z := tab n (fun k => k).
  Definition slice2 (H W r0 c0 n : Z) (get : Z -> Z -> V) : list V :=
    flat_map (fun h => flat_map (fun w =>
      if (r0 + h <? H) && (c0 + w <? W) then [get (r0 + h) (c0 + w)] else []) (zrange n)) (zrange n).
  Definition all_padded (P : pool) : bool :=
    negb (p_right P =? 0) && negb (p_left P =? 0) && negb (p_top P =? 0) && negb (p_bottom P =? 0).
  Definition py_window (P : pool) (x : list V) (c i j : Z) : list V :=
    let r0 := i * p_stride P in let c0 := j * p_stride P in
    if all_padded P
    then slice2 (p_IH P + p_top P + p_bottom P) (p_IW P + p_left P + p_right P) r0 c0 (p_size P)
           (fun a b => if (p_top P <=? a) && (a <? p_top P + p_IH P) && (p_left P <=? b) && (b <? p_left P + p_IW P)
                       then at3 (n0 N) (p_IH P) (p_IW P) x c (a - p_top P) (b - p_left P) else n0 N)
    else slice2 (p_IH P) (p_IW P) r0 c0 (p_size P) (fun a b => at3 (n0 N) (p_IH P) (p_IW P) x c a b).
  (** np.amax; an empty slice is an error, shown as [ninf]. *)
  Definition np_amax (l : list V) : V := match l with [] => ninf | v :: l' => fold_left (np_maximum N) l' v end.
  (** np.mean (numpy's summation order is not modelled). *)
  Definition np_mean (l : list V) : V := ndiv N (fold_left (nadd N) l (n0 N)) (nofZ N (zlen l)).
  Definition max_pool_py (P : pool) (x : list V) : list V :=
    tab3 (p_C P) (p_OH P) (p_OW P) (fun c i j => np_amax (py_window P x c i j)).
  Definition avg_pool_py (P : pool) (x : list V) : list V :=
    tab3 (p_C P) (p_OH P) (p_OW P) (fun c i j => np_mean (py_window P x c i j)).

  (** ** channels_last: templates/layers/template_Pooling2D_HWC.c.tpl with a
      linear activation (any other one refers to an undeclared variable o_ptr
      and does not compile).  pad_left is used for rows and columns; for
      (kh = a; kh < b) is a loop of b - a iterations starting at a. *)
  Definition hwc_loop (P : pool) (src : bname) (oh ow : Z) (step : V -> V -> V) (m : mem) : option mem :=
    let kh_start := Z.max 0 (p_left P - oh * p_stride P) in
    let kh_end := Z.min (p_size P) (p_IH P + p_left P - oh * p_stride P) in
    let kw_start := Z.max 0 (p_left P - ow * p_stride P) in
    let kw_end := Z.min (p_size P) (p_IW P + p_left P - ow * p_stride P) in
    let o := (oh * p_OW P + ow) * p_C P in
    for_ (kh_end - kh_start) (fun h => for_ (kw_end - kw_start) (fun w =>
      let ih := oh * p_stride P + (kh_start + h) - p_left P in
      let iw := ow * p_stride P + (kw_start + w) - p_left P in
      let b := (ih * p_IW P + iw) * p_C P in
      for_ (p_C P) (fun c m =>
        u <- rd m Temp (o + c) ;; v <- rd m src (b + c) ;; wr m Temp (o + c) (step v u)))) m.
  Definition hwc_max (P : pool) (src out : bname) : mem -> option mem :=
    via_temp (for_ (p_OH P) (fun oh => for_ (p_OW P) (fun ow m =>
        let o := (oh * p_OW P + ow) * p_C P in
        m1 <- for_ (p_C P) (fun c m => wr m Temp (o + c) ninf) m ;;
        hwc_loop P src oh ow (fun v u => if nlt N u v then v else u) m1)))
      (p_OH P * p_OW P * p_C P) (fun v => v) out.
  Definition hwc_avg (P : pool) (src out : bname) : mem -> option mem :=
    let inv_area := ndiv N (n1 N) (nofZ N (p_size P * p_size P)) in
    via_temp (for_ (p_OH P) (fun oh => for_ (p_OW P) (fun ow m =>
        let o := (oh * p_OW P + ow) * p_C P in
        m1 <- for_ (p_C P) (fun c m => wr m Temp (o + c) (n0 N)) m ;;
        m2 <- hwc_loop P src oh ow (fun v u => nadd N u v) m1 ;;
        for_ (p_C P) (fun c m => u <- rd m Temp (o + c) ;; wr m Temp (o + c) (nmul N u inv_area)) m2)))
      (p_OH P * p_OW P * p_C P) (fun v => v) out.
End Pooling.

(** ** Specification: the cells of the window of output (i,j) that lie inside
    the image, row by row; [get] reads the image, [t], [l] are the paddings
    above and to the left. *)
Definition window {V} (get : Z -> Z -> V) (IH IW size stride t l i j : Z) : list V :=
  flat_map (fun h => flat_map (fun w =>
    let ii := i * stride + h - t in let jj := j * stride + w - l in
    if (0 <=? ii) && (ii <? IH) && (0 <=? jj) && (jj <? IW) then [get ii jj] else [])
    (zrange size)) (zrange size).
