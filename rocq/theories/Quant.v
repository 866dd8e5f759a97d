(** * Fixed-point quantisation and parameter files: quantize/qform.py,
    quantize/activation.py, NN.quantize_layers, NN.generate_bin_parameter_file,
    NN.generate_parameter_file. *)
From Coq Require Import String Ascii ZArith QArith Qround Lia Bool.
From Coq Require Import List.
Import ListNotations.
From Verif Require Import CMem Tensor Num.
Open Scope Z_scope.

(** ** Q formats, quantize/qform.py:4-46.
    Simplification: strings are sequences of ASCII characters, so that [\d] is
    a digit 0-9 (Python's [\d] also matches the other Unicode digits). *)
Definition is_digit (c : ascii) : bool :=
  (48 <=? N_of_ascii c)%N && (N_of_ascii c <=? 57)%N.
(** [\d*], greedy: the digits and the rest.  No backtracking is needed: what
    follows in the pattern is never a digit. *)
Fixpoint span_digits (s : string) : string * string :=
  match s with
  | EmptyString => (EmptyString, EmptyString)
  | String c s' => if is_digit c then let (d, r) := span_digits s' in (String c d, r) else (EmptyString, s)
  end.
(** int() of a string of digits *)
Fixpoint py_int_from (acc : Z) (d : string) : Z :=
  match d with EmptyString => acc | String c d' => py_int_from (10 * acc + (Z.of_N (N_of_ascii c) - 48)) d' end.
(** [(\d+)] followed by the conversion int() of the group *)
Definition match_digits (s : string) : option (Z * string) :=
  let (d, r) := span_digits s in
  match d with EmptyString => None | _ => Some (py_int_from 0 d, r) end.
Definition newline : ascii := ascii_of_N 10.
(** [-?] *)
Definition match_minus (s : string) : Z * string :=
  match s with
  | String c s' => if Ascii.eqb c "-" then (-1, s') else (1, s)
  | EmptyString => (1, s)
  end.
(** a literal character *)
Definition match_char (c : ascii) (s : string) : option string :=
  match s with String c' s' => if Ascii.eqb c' c then Some s' else None | EmptyString => None end.
(** [$] matches at the end and also just before a final newline (Python's re). *)
Definition match_end (s : string) : bool := String.eqb s EmptyString || String.eqb s (String newline EmptyString).
(** re.match(r"^Q(-?\d+)\.(\d+)$", s), qform.py:28-46. *)
Definition parse_q_format (s : string) : option (Z * Z) :=
  r0 <- match_char "Q" s ;;
  let (sign, r1) := match_minus r0 in
  p1 <- match_digits r1 ;;
  r2 <- match_char "." (snd p1) ;;
  p2 <- match_digits r2 ;;
  if match_end (snd p2) then Some (sign * fst p1, fst p2) else None.

(** ** The post shift, quantize/activation.py:45-61.  [None]: unpacking the
    [None] of a malformed string raises TypeError. *)
Definition post_shift (qparam qin qout : string) : option Z :=
  match parse_q_format qparam, parse_q_format qin, parse_q_format qout with
  | Some (_, mparam), Some (_, min), Some (_, mout) =>
      let qshift := min + mparam - mout in
      Some (if qshift <? 0 then 0 else qshift)
  | _, _, _ => None
  end.

(** Two's complement integers of [n] bits. *)
Definition wrap (n z : Z) : Z := (z + 2 ^ (n - 1)) mod 2 ^ n - 2 ^ (n - 1).
Definition fits (n z : Z) : Prop := - 2 ^ (n - 1) <= z < 2 ^ (n - 1).
Definition fitsb (n z : Z) : bool := (- 2 ^ (n - 1) <=? z) && (z <? 2 ^ (n - 1)).

(** QuantizeShiftActivation.compute, activation.py:31-37: np.right_shift is
    floor division by a power of two, astype keeps the low bits. *)
Definition qshift_py (d shift : Z) (act : Z -> Z) (z : Z) : Z := act (wrap d (Z.shiftr z shift)).
(** its warning, activation.py:35: [(out != out1).all()] *)
Definition qshift_warns (d shift : Z) (l : list Z) : bool :=
  forallb (fun z => negb (Z.shiftr z shift =? wrap d (Z.shiftr z shift))) l.
(** write_activation_str, activation.py:39-43: the C expression
    [(ctype)(var >> shift)], [var] an integer of [w] bits: undefined when the
    shift is not below the width of the promoted operand, arithmetic otherwise
    (gcc), then converted to the [d] bits of ctype. *)
Definition qshift_c (w d shift : Z) (act : Z -> Z) (z : Z) : option Z :=
  if (0 <=? shift) && (shift <? Z.max 32 w) then Some (act (wrap d (Z.shiftr z shift))) else None.

(** ** Quantisation of parameters, neural_network.py:1091-1112:
    np.rint(p * 2**m).astype(pydtype).  np.rint: nearest, ties to even. *)
Definition rint (x : Q) : Z :=
  let f := Qfloor x in
  match Qcompare (x - inject_Z f) (1 # 2) with
  | Lt => f
  | Gt => f + 1
  | Eq => if Z.even f then f else f + 1
  end.
Definition quantize_param (d m : Z) (p : Q) : Z := wrap d (rint (p * inject_Z (2 ^ m))).
(** the warning [(weights != l.weights).all()] *)
Definition quantize_warns (d m : Z) (ps : list Q) : bool :=
  forallb (fun p => negb (rint (p * inject_Z (2 ^ m)) =? quantize_param d m p)) ps.

(** ** The integers of a quantised MatMul or Add layer.
    numpy: np.matmul(..., dtype=temp_pydtype) (matmul/MatMul.py:86-88): operands
    are converted to the [w] bits of the temporary type, operations wrap. *)
Definition py_int (w : Z) : num :=
  mkNum Z 0 1 (fun a b => wrap w (a + b)) (fun a b => wrap w (a - b)) (fun a b => wrap w (a * b))
    Z.quot Z.ltb (fun x => x) (fun x => x) (fun x => x) (fun x => x) (wrap w).
(** C: the product of two [d]-bit operands is computed in int or in their type
    if it is larger; the accumulator [ctx->tensor_temp] has [w] bits
    (templates/layers/template_MatMul.c.tpl:10-13).
    Simplification: signed overflow wraps (it is undefined in C). *)
Definition c_int (d w : Z) : num :=
  mkNum Z 0 1 (fun a b => wrap w (a + b)) (fun a b => wrap w (a - b)) (fun a b => wrap (Z.max 32 d) (a * b))
    Z.quot Z.ltb (fun x => x) (fun x => x) (fun x => x) (fun x => x) (wrap w).

(** Add, one output element, quantised: the operands added in the temporary type
    (broadcast/add/Add.py:112-136), the activation applied, no conversion back. *)
Definition qadd_py (w : Z) (act : Z -> Z) (a b : Z) : Z := act (wrap w (wrap w a + b)).
(** templates/layers/template_Broadcast.c.tpl: tensor_temp[..] = a + b;
    output[k] = tensor_temp[k], the output array having [d] bits. *)
Definition qadd_c (d w : Z) (act : Z -> Z) (a b : Z) : Z := wrap d (act (wrap w (wrap (Z.max 32 d) (a + b)))).

(** ** The binary parameter file, neural_network.py:1125-1160. *)
(** align_up, neural_network.py:1149-1150 *)
Definition align_up (value alignment : Z) : Z := Z.land (value + (alignment - 1)) (Z.lnot (alignment - 1)).
Definition byte := Z.
(** file.seek(pos) then a write of [bytes]: the gap is filled with zeros *)
Definition write_at (file : list byte) (pos : Z) (bytes : list byte) : list byte :=
  match bytes with
  | [] => file
  | _ => file ++ repeat 0 (Z.to_nat (pos - zlen file)) ++ bytes
  end.
(** The loop over the symbols, neural_network.py:1152-1159: the file, the
    position [parameters_bin.tell()] and the --add-symbol entries. *)
Definition bin_state : Type := list byte * Z * list (string * Z).
Definition bin_step (page : Z) (st : bin_state) (s : string * list byte) : bin_state :=
  let '(file, tell, syms) := st in
  let pos := align_up tell page in
  (write_at file pos (snd s), pos + zlen (snd s), syms ++ [(fst s, pos)]).
Definition bin_file (page : Z) (symtab : list (string * list byte)) : bin_state :=
  fold_left (bin_step page) symtab ([], 0, []).
