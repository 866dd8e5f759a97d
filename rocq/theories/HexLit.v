(** * Numbers written in the generated files: generator/neural_network.py:593-601
    (data2c, c2data), with CPython's float.hex, float.fromhex and str.replace.
    The numbers are IEEE binary64 values; data_type_py float32 values are
    converted by float() first, exactly.  to_hex = False (str(float(d)), Python's
    decimal repr): Decimal.v.  Integers (str(d)) are not modelled. *)
From Coq Require Import String Ascii.
From Coq Require Import ZArith List Lia Bool QArith Qpower.
Import ListNotations.
Open Scope list_scope.
Open Scope Z_scope.

(** ** Specification: the value of a hexadecimal floating constant
    (C11 6.4.4.2; float.fromhex accepts the same, and more). *)
Definition digit_of (c : ascii) : option Z :=
  let n := Z.of_nat (nat_of_ascii c) in
  if (48 <=? n) && (n <=? 57) then Some (n - 48)
  else if (97 <=? n) && (n <=? 102) then Some (n - 87)
  else if (65 <=? n) && (n <=? 70) then Some (n - 55) else None.
Definition is_hex (c : ascii) : bool := match digit_of c with Some _ => true | None => false end.
Definition is_dec (c : ascii) : bool := match digit_of c with Some d => d <? 10 | None => false end.
Definition digit (c : ascii) : Z := match digit_of c with Some d => d | None => 0 end.
(** Digits in base [b], the most significant first. *)
Definition number (b : Z) (l : list ascii) : Z := fold_left (fun v c => v * b + digit c) l 0.
Fixpoint span (p : ascii -> bool) (l : list ascii) : list ascii * list ascii :=
  match l with
  | c :: r => if p c then (c :: fst (span p r), snd (span p r)) else ([], l)
  | [] => ([], [])
  end.
Definition sign (l : list ascii) : bool * list ascii :=
  match l with
  | c :: r => if Ascii.eqb c "-" then (true, r) else if Ascii.eqb c "+" then (false, r) else (false, l)
  | [] => (false, [])
  end.
Definition signed (neg : bool) (n : Z) : Z := if neg then - n else n.
(** (-1)^s * digits * 2^exponent, [fraction] digits being after the point. *)
Definition scaled (neg : bool) (n : Z) (fraction : Z) (e : Z) : Q := (inject_Z (signed neg n) * Qpower 2 (e - 4 * fraction))%Q.
(** What follows the prefix: digits, point, digits, 'p' exponent. [strict]: a C
    constant, with an exponent; otherwise float.fromhex, without one too. *)
Definition hex_body (strict neg : bool) (l : list ascii) : option Q :=
  let (ds, l1) := span is_hex l in
  let (fs, l2) := match l1 with c :: r => if Ascii.eqb c "." then span is_hex r else ([], l1) | [] => ([], []) end in
  match ds ++ fs with
  | [] => None
  | digits =>
    match l2 with
    | [] => if strict then None else Some (scaled neg (number 16 digits) (Z.of_nat (length fs)) 0)
    | c :: r => if Ascii.eqb c "p" then
                  let (eneg, r1) := sign r in let (es, rest) := span is_dec r1 in
                  match es, rest with
                  | _ :: _, [] => Some (scaled neg (number 16 digits) (Z.of_nat (length fs)) (signed eneg (number 10 es)))
                  | _, _ => None
                  end
                else None
    end
  end.
Definition without_0x (l : list ascii) : option (list ascii) :=
  match l with a :: b :: r => if Ascii.eqb a "0" && Ascii.eqb b "x" then Some r else None | _ => None end.
(** The value of a C expression: an optional minus sign and a constant. *)
Definition c_value (s : string) : option Q :=
  let (neg, l) := match list_ascii_of_string s with c :: r => if Ascii.eqb c "-" then (true, r) else (false, c :: r) | [] => (false, []) end in
  match without_0x l with Some r => hex_body true neg r | None => None end.
(** float.fromhex (without surrounding blanks, inf and nan). *)
Definition fromhex (s : string) : option Q :=
  let (neg, l) := sign (list_ascii_of_string s) in
  match without_0x l with Some r => hex_body false neg r | None => hex_body false neg l end.

(** ** The code. *)
(** A binary64 number: zero, a finite one written lead.fraction * 2^exponent
    with 13 hexadecimal digits after the point, an infinity or a NaN. *)
Inductive double := DZero (neg : bool) | DFinite (neg : bool) (lead fraction exponent : Z) | DInf (neg : bool) | DNan.
(** Normal numbers: lead 1; subnormal ones: lead 0 and the least exponent. *)
Definition binary64 (d : double) : Prop :=
  match d with
  | DFinite _ lead fr e => 0 <= fr < 16 ^ 13 /\ (lead = 1 /\ -1022 <= e <= 1023 \/ lead = 0 /\ 0 < fr /\ e = -1022)
  | _ => True
  end.
(** The value of a finite number. *)
Definition value (d : double) : option Q :=
  match d with
  | DZero _ => Some 0%Q
  | DFinite neg lead fr e => Some (inject_Z (signed neg (lead * 16 ^ 13 + fr)) * Qpower 2 (e - 52))%Q
  | _ => None
  end.
Definition hex_char (d : Z) : ascii := ascii_of_nat (Z.to_nat (if d <? 10 then 48 + d else 87 + d)).
(** [n] hexadecimal digits. *)
Fixpoint hex_digits (n : nat) (v : Z) : list ascii := match n with O => [] | S n' => hex_digits n' (v / 16) ++ [hex_char (v mod 16)] end.
(** printf "%d" of a natural number below 10 ^ n. *)
Fixpoint dec_digits (n : nat) (v : Z) : list ascii :=
  match n with O => [] | S n' => (if v <? 10 then [] else dec_digits n' (v / 10)) ++ [hex_char (v mod 10)] end.
Definition minus (neg : bool) : list ascii := if neg then ["-"%char] else [].
(** float.hex (CPython, Objects/floatobject.c, float_hex_impl). *)
Definition py_hex (d : double) : list ascii :=
  match d with
  | DZero neg => minus neg ++ list_ascii_of_string "0x0.0p+0"
  | DFinite neg lead fr e =>
      minus neg ++ ["0"; "x"]%char ++ [hex_char lead] ++ ["."%char] ++ hex_digits 13 fr ++ ["p"%char] ++
      [if e <? 0 then "-"%char else "+"%char] ++ dec_digits 4 (Z.abs e)
  | DInf neg => minus neg ++ list_ascii_of_string "inf"
  | DNan => list_ascii_of_string "nan"
  end.
(** str.replace: every occurrence from the left. *)
Fixpoint starts_with (pat l : list ascii) : bool :=
  match pat, l with
  | [], _ => true
  | a :: p, b :: r => Ascii.eqb a b && starts_with p r
  | _ :: _, [] => false
  end.
Fixpoint replace_in (fuel : nat) (pat rep l : list ascii) : list ascii :=
  match fuel, l with
  | S f, c :: r => if starts_with pat l then rep ++ replace_in f pat rep (skipn (length pat) l) else c :: replace_in f pat rep r
  | _, _ => l
  end.
Definition replace (pat rep l : list ascii) : list ascii := replace_in (length l) pat rep l.
(** neural_network.py:596-597: float.hex(float(d)).replace("0000000p", "p") *)
Definition data2c (d : double) : string :=
  string_of_list_ascii (replace (list_ascii_of_string "0000000p") ["p"%char] (py_hex d)).
