(** * Resize layers: nearest, linear and cubic.
    Coordinates are exact rationals (the generated code computes them in
    float); elements are of an arbitrary number type [N], [q] converts a
    coordinate into an element.  Modes half_pixel_symmetric and
    tf_crop_and_resize are not modelled: the text generated for them in a
    two-dimensional resize is not valid C (Resize.py:247-251 declares
    adjustment, center, offset twice in one block; Resize.py:382-383 writes an
    [if] without parentheses around its condition and no semicolon). *)
From Coq Require Import ZArith List Lia Bool QArith Qround.
Import ListNotations.
From Verif Require Import CMem Tensor Num.
Open Scope Z_scope.

Inductive cmode := HalfPixel | PytorchHalfPixel | AlignCorners | Asymmetric.
Inductive nmode := NFloor | NCeil | RoundPreferFloor | RoundPreferCeil.

Local Notation half := (1 # 2)%Q.

(** Coordinate in the input of output coordinate [i]: the C text.
    Resize.py:221-228 half_pixel, 276-292 pytorch_half_pixel, 312-329
    align_corners (integers only, hence C's integer division; [None] is a
    division by zero), 351-358 asymmetric. *)
Definition coord_c (md : cmode) (scale : Q) (isize osize i : Z) : option Q :=
  match md with
  | HalfPixel => Some ((inject_Z i + half) / scale - half)%Q
  | PytorchHalfPixel => if 1 <? osize then Some ((inject_Z i + half) / scale - half)%Q else Some 0%Q
  | AlignCorners => if osize - 1 =? 0 then None else Some (inject_Z (Z.quot (i * (isize - 1)) (osize - 1)))
  | Asymmetric => Some (inject_Z i / scale)%Q
  end.

(** The same in Python: Resize.py:230-236, 294-310, 331-349, 360-366; the
    division of align_corners is exact, a zero divisor raises. *)
Definition coord_py (md : cmode) (scale : Q) (isize osize i : Z) : option Q :=
  match md with
  | HalfPixel => Some ((inject_Z i + half) / scale - half)%Q
  | PytorchHalfPixel => if 1 <? osize then Some ((inject_Z i + half) / scale - half)%Q else Some 0%Q
  | AlignCorners => if osize - 1 =? 0 then None else Some (inject_Z (i * (isize - 1)) / inject_Z (osize - 1))%Q
  | Asymmetric => Some (inject_Z i / scale)%Q
  end.

(** ResizeNearestDefault.py:48-59 and ResizeNearest.py:58-68: the same formulas in C and Python. *)
Definition nearest (nm : nmode) (x : Q) : Z :=
  match nm with
  | NFloor => Qfloor x
  | NCeil => Qceiling x
  | RoundPreferFloor => Qfloor (inject_Z (Qceiling (2 * x)) / 2)%Q
  | RoundPreferCeil => Qceiling (inject_Z (Qfloor (2 * x)) / 2)%Q
  end.

(** Output size: Resize.py:108-110, int(input*scale) for a positive scale. *)
Definition resized (scale : Q) (isize : Z) : Z := Qfloor (inject_Z isize * scale)%Q.

(** np.clip(x, 0, n-1), ResizeLinear.py:56,58; template_ResizeLinear2D.c.tpl:11-12. *)
Definition qclip (n : Z) (x : Q) : Q :=
  if Qlt_le_dec x 0 then 0%Q else if Qlt_le_dec (inject_Z (n - 1)) x then inject_Z (n - 1) else x.

(** Python indexing of an axis of length n: a negative index counts from the end. *)
Definition py_index (n k : Z) : option Z :=
  if (0 <=? k) && (k <? n) then Some k else if (- n <=? k) && (k <? 0) then Some (k + n) else None.

(** max(0, min(n-1, k)), ResizeCubic.py:59-63; in C the nested conditionals of the cubic templates. *)
Definition cclamp (n k : Z) : Z := if k <? 0 then 0 else if n <=? k then n - 1 else k.
Definition pyclamp (n k : Z) : Z := Z.max 0 (Z.min (n - 1) k).

(** A list of possibly undefined elements as a possibly undefined list. *)
Fixpoint sequence {A} (l : list (option A)) : option (list A) :=
  match l with [] => Some [] | o :: l' => x <- o ;; xs <- sequence l' ;; Some (x :: xs) end.

Section Resize.
  Context (N : num) (q : Q -> T N).
  Notation V := (T N).
  Notation mem := (mem V).
  Local Infix "+'" := (nadd N) (at level 50, left associativity).
  Local Infix "-'" := (nsub N) (at level 50, left associativity).
  Local Infix "*'" := (nmul N) (at level 40, left associativity).
  Local Notation "1'" := (n1 N).
  Local Notation "2'" := (nadd N (n1 N) (n1 N)).
  Local Notation "3'" := (nadd N (n1 N) (nadd N (n1 N) (n1 N))).

  Record rparams := mkR { rC : Z; rH : Z; rW : Z; rOH : Z; rOW : Z; rsh : Q; rsw : Q; rmode : cmode }.

  Definition cx (cd : cmode -> Q -> Z -> Z -> Z -> option Q) (p : rparams) (i : Z) : option Q :=
    cd (rmode p) (rsh p) (rH p) (rOH p) i.
  Definition cy (cd : cmode -> Q -> Z -> Z -> Z -> option Q) (p : rparams) (j : Z) : option Q :=
    cd (rmode p) (rsw p) (rW p) (rOW p) j.

  (** *** Nearest: template_ResizeNearest.c.tpl with the activation of
      ResizeNearestDefault.py:71-72 on the element read. *)
  Definition nearest_c (nm : nmode) (src out : bname) (p : rparams) (act : V -> V) : mem -> option mem :=
    via_temp
      (for_ (rC p) (fun f => for_ (rOH p) (fun i => for_ (rOW p) (fun j m =>
        x <- cx coord_c p i ;; y <- cy coord_c p j ;;
        let x0 := nearest nm x in let y0 := nearest nm y in
        v <- rd m src (y0 + rW p * (x0 + rH p * f)) ;;
        wr m Temp (j + rOW p * (i + rOH p * f)) (act v)))))
      (rC p * rOH p * rOW p) (fun v => v) out.

  (** ResizeNearest.py:75-92. *)
  Definition nearest_py (nm : nmode) (p : rparams) (x : list V) : option (list V) :=
    sequence (tab3 (rC p) (rOH p) (rOW p) (fun f i j =>
      u <- cx coord_py p i ;; v <- cy coord_py p j ;;
      x0 <- py_index (rH p) (nearest nm u) ;; y0 <- py_index (rW p) (nearest nm v) ;;
      rdl x (idx3 (rH p) (rW p) f x0 y0))).

  (** *** Linear *)
  Definition bilinear (f11 f21 f22 f12 : V) (x y : Q) (x0 x1 y0 y1 : Z) : V :=
    let inj (z : Z) : Q := inject_Z z in
    ndiv N (f11 *' q (inj x1 - x)%Q *' q (inj y1 - y)%Q +' f21 *' q (x - inj x0)%Q *' q (inj y1 - y)%Q
            +' f12 *' q (inj x1 - x)%Q *' q (y - inj y0)%Q +' f22 *' q (x - inj x0)%Q *' q (y - inj y0)%Q)
           (q (inj ((x1 - x0) * (y1 - y0)))).

  (** template_ResizeLinear2D.c.tpl:9-25: one cell, before the activation. *)
  Definition linear_cell_2d (src : bname) (p : rparams) (f i j : Z) (m : mem) : option V :=
    x <- cx coord_c p i ;; y <- cy coord_c p j ;;
    let x := qclip (rH p) x in let y := qclip (rW p) y in
    let x1 := Qfloor x + 1 in let x0 := Qfloor x in
    let y0 := Qfloor y in let y1 := Qfloor y + 1 in
    f11 <- rd m src (y0 + rW p * (x0 + rH p * f)) ;;
    f21 <- (if rH p <=? x1 then Some (n0 N) else rd m src (y0 + rW p * (x1 + rH p * f))) ;;
    f22 <- (if (rH p <=? x1) || (rW p <=? y1) then Some (n0 N) else rd m src (y1 + rW p * (x1 + rH p * f))) ;;
    f12 <- (if rW p <=? y1 then Some (n0 N) else rd m src (y1 + rW p * (x0 + rH p * f))) ;;
    Some (bilinear f11 f21 f22 f12 x y x0 x1 y0 y1).

  (** template_ResizeLinear1D.c.tpl:2-16: [dim] is the length of the axis that
      is not 1; [axis_x] the coordinate text for it (ResizeLinearDefault.py:64-75). *)
  Definition linear_cell_1d (src : bname) (dim : Z) (coord : Z -> Z -> option Q) (f i j : Z) (m : mem) : option V :=
    let x1 := dim - 1 in let x0 := 0 in
    f11 <- rd m src (x0 + dim * f) ;; f22 <- rd m src (x1 + dim * f) ;;
    x <- coord i j ;;
    let x := qclip dim x in
    Some (ndiv N (f11 *' q (inject_Z x1 - x)%Q +' f22 *' q (x - inject_Z x0)%Q) (q (inject_Z (x1 - x0)))).

  (** The shape test of ResizeLinearDefault.py:64-84 and ResizeCubicDefault.py:62-80;
      [None]: a 1x1 input leaves the variable dimension unbound (an exception). *)
  Definition by_shape {A} (p : rparams) (one_row one_col two : A) : option A :=
    if (rH p =? 1) && (1 <? rW p) then Some one_row
    else if (1 <? rH p) && (rW p =? 1) then Some one_col
    else if (1 <? rH p) && (1 <? rW p) then Some two else None.

  (** The loops shared by the linear and cubic templates: the value is written
      to tensor_temp and then replaced by its activation, tensor_temp is copied. *)
  Definition resize_loops (cell : Z -> Z -> Z -> mem -> option V) (out : bname) (p : rparams) (act : V -> V) : mem -> option mem :=
    via_temp
      (for_ (rC p) (fun f => for_ (rOH p) (fun i => for_ (rOW p) (fun j m =>
        v <- cell f i j m ;;
        m1 <- wr m Temp (j + rOW p * (i + rOH p * f)) v ;;
        v1 <- rd m1 Temp (j + rOW p * (i + rOH p * f)) ;;
        wr m1 Temp (j + rOW p * (i + rOH p * f)) (act v1)))))
      (rC p * rOH p * rOW p) (fun v => v) out.

  (** Generated code, or [None] when generation raises. *)
  Definition linear_c (src out : bname) (p : rparams) (act : V -> V) : option (mem -> option mem) :=
    cell <- by_shape p (linear_cell_1d src (rW p) (fun _ j => cy coord_c p j))
                       (linear_cell_1d src (rH p) (fun i _ => cx coord_c p i))
                       (linear_cell_2d src p) ;;
    Some (resize_loops cell out p act).

  (** ResizeLinear.py:47-77. *)
  Definition linear_py (p : rparams) (d : V) (x : list V) : option (list V) :=
    sequence (tab3 (rC p) (rOH p) (rOW p) (fun f i j =>
      u <- cx coord_py p i ;; v <- cy coord_py p j ;;
      let u := qclip (rH p) u in let v := qclip (rW p) v in
      let x0 := Qfloor u in let x1 := Qfloor u + 1 in let y0 := Qfloor v in let y1 := Qfloor v + 1 in
      let a := at3 d (rH p) (rW p) x f in
      Some (bilinear (a x0 y0) (if rH p <=? x1 then n0 N else a x1 y0)
              (if (rH p <=? x1) || (rW p <=? y1) then n0 N else a x1 y1)
              (if rW p <=? y1 then n0 N else a x0 y1) u v x0 x1 y0 y1))).

  (** *** Cubic.  [a] is cubic_coeff_a. *)
  (** template_ResizeCubic1D.c.tpl:19, template_ResizeCubic2D.c.tpl:20,28,36,44,48. *)
  Definition cubic_c4 (a s f_1 f0 f1 f2 : V) : V :=
    let neg := fun v => n0 N -' v in
    f_1 *' a *' s *' (1' +' s *' (s -' 2'))
    +' f0 *' (s *' s *' (a *' (s -' 1') +' 2' *' s -' 3') +' 1')
    +' f1 *' s *' (s *' (neg s *' (2' +' a) +' 2' *' a +' 3') -' a)
    +' f2 *' a *' s *' s *' (1' -' s).

  (** ResizeCubic.py:66-73 and 91-96. *)
  Definition five := nadd N 2' 3'.
  Definition four := nadd N 2' 2'.
  Definition eight := nadd N four four.
  Definition coeff1 (a s : V) := ((a *' (s +' 1') -' five *' a) *' (s +' 1') +' eight *' a) *' (s +' 1') -' four *' a.
  Definition coeff2 (a s : V) := ((a +' 2') *' s -' (a +' 3')) *' s *' s +' 1'.
  Definition coeff3 (a s : V) := ((a +' 2') *' (1' -' s) -' (a +' 3')) *' (1' -' s) *' (1' -' s) +' 1'.
  Definition coeff4 (a s : V) := ((a *' (2' -' s) -' five *' a) *' (2' -' s) +' eight *' a) *' (2' -' s) -' four *' a.
  Definition cubic_py4 (a s f_1 f0 f1 f2 : V) : V :=
    f_1 *' coeff1 a s +' f0 *' coeff2 a s +' f1 *' coeff3 a s +' f2 *' coeff4 a s.

  (** template_ResizeCubic2D.c.tpl:9-48. *)
  Definition cubic_column_c (a : V) (src : bname) (p : rparams) (f x0 col : Z) (s : V) (m : mem) : option V :=
    let col := cclamp (rW p) col in
    let at_ k := rd m src (col + rW p * (cclamp (rH p) k + rH p * f)) in
    f_1 <- at_ (x0 - 1) ;; f0 <- at_ x0 ;; f1 <- at_ (x0 + 1) ;; f2 <- at_ (x0 + 2) ;;
    Some (cubic_c4 a s f_1 f0 f1 f2).
  Definition cubic_cell_2d (a : V) (src : bname) (p : rparams) (f i j : Z) (m : mem) : option V :=
    x <- cx coord_c p i ;; y <- cy coord_c p j ;;
    let x0 := Qfloor x in let y0 := Qfloor y in
    let sx := q (x - inject_Z x0)%Q in
    b_1 <- cubic_column_c a src p f x0 (y0 - 1) sx m ;;
    b0 <- cubic_column_c a src p f x0 y0 sx m ;;
    b1 <- cubic_column_c a src p f x0 (y0 + 1) sx m ;;
    b2 <- cubic_column_c a src p f x0 (y0 + 2) sx m ;;
    Some (cubic_c4 a (q (y - inject_Z y0)%Q) b_1 b0 b1 b2).

  (** template_ResizeCubic1D.c.tpl:9-20. *)
  Definition cubic_cell_1d (a : V) (src : bname) (dim : Z) (coord : Z -> Z -> option Q) (f i j : Z) (m : mem) : option V :=
    x <- coord i j ;;
    let x0 := Qfloor x in
    let at_ k := rd m src (cclamp dim k + dim * f) in
    f_1 <- at_ (x0 - 1) ;; f0 <- at_ x0 ;; f1 <- at_ (x0 + 1) ;; f2 <- at_ (x0 + 2) ;;
    Some (cubic_c4 a (q (x - inject_Z x0)%Q) f_1 f0 f1 f2).

  Definition cubic_c (a : V) (src out : bname) (p : rparams) (act : V -> V) : option (mem -> option mem) :=
    cell <- by_shape p (cubic_cell_1d a src (rW p) (fun _ j => cy coord_c p j))
                       (cubic_cell_1d a src (rH p) (fun i _ => cx coord_c p i))
                       (cubic_cell_2d a src p) ;;
    Some (resize_loops cell out p act).

  (** ResizeCubic.py:50-73. *)
  Definition cubic_1d_py (a : V) (p : rparams) (d : V) (x : list V) (f u v : Z) (s : V) : V :=
    let at_ k := at3 d (rH p) (rW p) x f (pyclamp (rH p) k) (pyclamp (rW p) v) in
    cubic_py4 a s (at_ (u - 1)) (at_ u) (at_ (u + 1)) (at_ (u + 2)).
  (** ResizeCubic.py:75-103. *)
  Definition cubic_py (a : V) (p : rparams) (d : V) (x : list V) : option (list V) :=
    sequence (tab3 (rC p) (rOH p) (rOW p) (fun f i j =>
      u <- cx coord_py p i ;; v <- cy coord_py p j ;;
      let x0 := Qfloor u in let y0 := Qfloor v in
      let s := q (v - inject_Z y0)%Q in let t := q (u - inject_Z x0)%Q in
      let col k := cubic_1d_py a p d x f x0 k t in
      Some (coeff1 a s *' col (y0 - 1) +' coeff2 a s *' col y0 +' coeff3 a s *' col (y0 + 1) +' coeff4 a s *' col (y0 + 2)))).
End Resize.
