(** * Numbers written in decimal: data2c and c2data with to_hex = False
    (generator/neural_network.py:593-604), the conversion "%9g" of the output file
    (neural_network.py:696-700, templates/template_main_file.c.tpl:64-66) and "%.9g"
    of the debugging file (templates/template_source_file.c.tpl:103), read back by
    debug/debug_tools.py:117-120. *)
From Coq Require Import String Ascii.
From Coq Require Import ZArith List Lia Bool Reals.
From Flocq Require Import Core Digits.
From Verif Require Import HexLit FloatFormats.
Import ListNotations.
Open Scope list_scope.
Open Scope Z_scope.

(** ** Specification: the value of a decimal constant (C11 6.4.4.2, and
    Python's float()): digits, perhaps a point and digits, perhaps an exponent. *)
Definition radix10 : radix := Build_radix 10 eq_refl.
Definition decimal_value (neg : bool) (n fraction e : Z) : R := (IZR (signed neg n) * bpow radix10 (e - fraction))%R.
Definition decimal_body (neg : bool) (l : list ascii) : option R :=
  let (ds, l1) := span is_dec l in
  let (fs, l2) := match l1 with c :: r => if Ascii.eqb c "." then span is_dec r else ([], l1) | [] => ([], []) end in
  match ds ++ fs with
  | [] => None
  | digits =>
    match l2 with
    | [] => Some (decimal_value neg (number 10 digits) (Z.of_nat (length fs)) 0)
    | c :: r => if Ascii.eqb c "e" then
                  let (eneg, r1) := sign r in let (es, rest) := span is_dec r1 in
                  match es, rest with
                  | _ :: _, [] => Some (decimal_value neg (number 10 digits) (Z.of_nat (length fs)) (signed eneg (number 10 es)))
                  | _, _ => None
                  end
                else None
    end
  end.
(** The exact value of a text, before it is rounded to a format: Python's float()
    (blanks around a number aside). *)
Definition exactly (l : list ascii) : option R := let (neg, r) := sign l in decimal_body neg r.
(** A C floating constant has a point or an exponent (otherwise it is an integer
    constant), and a minus sign before it is the unary operator. *)
Definition c_exactly (l : list ascii) : option R :=
  if existsb (fun c => Ascii.eqb c "." || Ascii.eqb c "e") l then
    match l with c :: r => if Ascii.eqb c "-" then decimal_body true r else decimal_body false l | [] => None end
  else None.

(** The number (-1)^s m 2^e, and the two formats (FloatFormats.v). *)
Definition dyadic (neg : bool) (m e : Z) : R := (IZR (signed neg m) * bpow radix2 e)%R.
Definition in_binary32 (x : R) : Prop := generic_format radix2 (FLT_exp (-149) 24) x.
Definition in_binary64 (x : R) : Prop := generic_format radix2 (FLT_exp (-1074) 53) x.
Definition to_binary32 : R -> R := FloatFormats.nearest 24 (-149).
Definition to_binary64 : R -> R := FloatFormats.nearest 53 (-1074).

(** ** The C library's conversion %.Pg of a finite number (C11 7.21.6.1):
    correctly rounded, ties to even, as glibc does. *)
(** a/b has its first digit at 10^exponent10. *)
Definition exponent10 (a b : Z) : Z := if b <=? a then Zdigits radix10 (a / b) - 1 else - Zdigits radix10 ((b - 1) / a).
Definition divide_even (n d : Z) : Z :=
  match 2 * (n mod d) ?= d with Lt => n / d | Gt => n / d + 1 | Eq => if Z.even (n / d) then n / d else n / d + 1 end.
Definition scaled10 (a b s : Z) : Z := if 0 <=? s then divide_even (a * 10 ^ s) b else divide_even a (b * 10 ^ (- s)).
(** The P digits of a/b, as a number, and the exponent of the first one. *)
Definition digits_of (P a b : Z) : Z * Z :=
  let X := exponent10 a b in let D := scaled10 a b (P - 1 - X) in
  if D =? 10 ^ P then (10 ^ (P - 1), X + 1) else (D, X).
Definition numerator (m e : Z) : Z := if 0 <=? e then m * 2 ^ e else m.
Definition denominator (e : Z) : Z := if 0 <=? e then 1 else 2 ^ (- e).
Fixpoint strip (l : list ascii) : list ascii :=
  match l with
  | [] => []
  | c :: r => match strip r with [] => if Ascii.eqb c "0" then [] else [c] | r' => c :: r' end
  end.
Definition zeros (k : Z) : list ascii := repeat "0"%char (Z.to_nat k).
(** Digits [ds], the first one at 10^X, without exponent; [point] is written after
    a number without fraction. *)
Definition positional (point ds : list ascii) (X : Z) : list ascii :=
  if X <? 0 then ["0"; "."]%char ++ zeros (- X - 1) ++ ds
  else firstn (Z.to_nat (X + 1)) ds ++ zeros (X + 1 - Z.of_nat (length ds)) ++
       match skipn (Z.to_nat (X + 1)) ds with [] => point | f => "."%char :: f end.
Definition natural (v : Z) : list ascii := dec_digits (Z.to_nat (v + 1)) v.
Definition scientific (ds : list ascii) (X : Z) : list ascii :=
  firstn 1 ds ++ match skipn 1 ds with [] => [] | f => "."%char :: f end ++
  "e"%char :: (if (X <? 0)%Z then "-"%char else "+"%char) :: (if Z.abs X <? 10 then ["0"%char] else []) ++ natural (Z.abs X).
Definition printf_g (P : Z) (neg : bool) (m e : Z) : list ascii :=
  minus neg ++
  if m =? 0 then ["0"%char]
  else let (D, X) := digits_of P (numerator m e) (denominator e) in
       let ds := strip (dec_digits (Z.to_nat P) D) in
       if (-4 <=? X) && (X <? P) then positional [] ds X else scientific ds X.
(** Width [w]: blanks before. *)
Definition padded (w : nat) (l : list ascii) : list ascii := repeat " "%char (w - length l) ++ l.

(** ** Python's repr of a finite float (Objects/floatobject.c, float_repr_style
    "short"): the shortest digits that are read as the number (of those CPython
    takes the nearest to it; the theorems hold for any), without exponent when the
    first digit is between 10^-4 and 10^15. *)
Definition repr_of (neg : bool) (ds : list ascii) (X : Z) : list ascii :=
  minus neg ++ if (-4 <=? X) && (X <? 16) then positional [".";"0"]%char ds X else scientific ds X.
(** The value of P digits D, the first one at 10^X. *)
Definition decimal_float (neg : bool) (D P X : Z) : R := (IZR (signed neg D) * bpow radix10 (X - P + 1))%R.
Definition repr_text (neg : bool) (m e : Z) (l : list ascii) : Prop :=
  if m =? 0 then l = minus neg ++ ["0"; "."; "0"]%char
  else exists D P X, 1 <= P /\ 10 ^ (P - 1) <= D < 10 ^ P /\
    l = repr_of neg (strip (dec_digits (Z.to_nat P) D)) X /\
    to_binary64 (decimal_float neg D P X) = dyadic neg m e /\
    forall D' P' X', 1 <= P' -> 10 ^ (P' - 1) <= D' < 10 ^ P' -> to_binary64 (decimal_float neg D' P' X') = dyadic neg m e -> P <= P'.

(** ** The debugging file for data_type float: fprintf("%.9g") of the value promoted
    to double (template_source_file.c.tpl:103), read by np.float32 of the word
    (debug_tools.py:120): read as a binary64 number, then rounded to binary32. *)
Definition debug_text (x : R) : list ascii :=
  let m := Ztrunc (scaled_mantissa radix2 (FLT_exp (-149) 24) x) in
  printf_g 9 (m <? 0) (Z.abs m) (cexp radix2 (FLT_exp (-149) 24) x).
Definition debug_read (l : list ascii) : option R := option_map (fun y => to_binary32 (to_binary64 y)) (exactly l).
