(** * What stays in single precision when data_type is double (C83).
    Sigmoid and TanH are written with expf whatever data_type
    (generator/activation_functions.py:96-98, 183-185), the linear Resize copies the
    pixels and the position to variables declared float
    (templates/template_source_file.c.tpl:54-56, 69-76;
    templates/layers/Resize/template_ResizeLinear2D.c.tpl:8-27). *)
From Coq Require Import ZArith List Reals.
From Flocq Require Import Core.
From Verif Require Import Num RealInst Rounding FloatFormats Decimal.
Open Scope R_scope.

(** C's expf: the argument is converted to float, the result is a float (rounded
    correctly; overflow is not modelled and the code calls it on negative numbers). *)
Definition expf (x : R) : R := to_binary32 (exp (to_binary32 x)).
(** The arithmetic of a double program whose calls of the exponential are expf:
    every operation is rounded to binary64. *)
Definition double_expf : num :=
  let F := FloatFormats.binary64 in
  mkNum (float F) (fl F 0) (fl F 1)
    (fun a b => fl F (val a + val b)) (fun a b => fl F (val a - val b)) (fun a b => fl F (val a * val b)) (fun a b => fl F (val a / val b))
    (fun a b => Rltb (val a) (val b))
    (fun a => fl F (expf (val a))) (fun a => fl F (sqrt (val a))) (fun a => fl F (flog F (val a))) (fun a => fl F (ftanh F (val a)))
    (fun z => fl F (IZR z)).

(** template_ResizeLinear2D.c.tpl:16-27: one output pixel at position (x, y), from
    four pixels of the input (0 outside); x0, y0 the rounded positions, x1 = x0 + 1,
    y1 = y0 + 1.  All the operands are float or int, hence so are the operations. *)
Definition linear_pixel (p11 p12 p21 p22 x y : R) (x0 y0 : Z) : R :=
  let r := to_binary32 in
  let f11 := r p11 in let f12 := r p12 in let f21 := r p21 in let f22 := r p22 in
  let x1 := (x0 + 1)%Z in let y1 := (y0 + 1)%Z in
  let a1 := r (r (IZR x1) - x) in let a0 := r (x - r (IZR x0)) in
  let b1 := r (r (IZR y1) - y) in let b0 := r (y - r (IZR y0)) in
  r (r (r (r (r (r (f11 * a1) * b1) + r (r (f21 * a0) * b1)) + r (r (f12 * a1) * b0)) + r (r (f22 * a0) * b0))
     / r (IZR ((x1 - x0) * (y1 - y0)))).
