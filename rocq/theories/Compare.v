(** * The acetone_compare command: cli/compare.py:28-139, and the lines it
    reads: generator/neural_network.py:583-585 (compute_inference, Python
    outputs) and templates/template_main_file.c.tpl:59-75 (C outputs).
    A number is a real number, an infinity or NaN: the subtractions and
    divisions are exact here (rounding is not modelled).  A file is the list of
    its lines, each with its newline. *)
From Coq Require Import String Ascii.
From Coq Require Import ZArith List Lia Bool QArith Qpower Reals Qreals Lra.
Import ListNotations.
Open Scope list_scope.
Open Scope Z_scope.
From Verif Require Import HexLit.

Inductive fl := Fin (r : R) | Inf (neg : bool) | NaN.

(** ** Specification. *)
(** The least normal number and the greatest number of binary64, 128 ulps of 1
    (sys.float_info, compare.py:31-32). *)
Definition abs_th : R := (/ 2 ^ 1022)%R.
Definition epsilon : R := (128 * / 2 ^ 52)%R.
Definition fmax : R := ((2 - / 2 ^ 52) * 2 ^ 1023)%R.
(** Errors between two real numbers. *)
Definition absolute_error (a b : R) : R := Rabs (a - b).
Definition norm (a b : R) : R := Rmin (Rabs a + Rabs b) fmax.
Definition relative_error (a b : R) : R := if Req_EM_T (norm a b) 0 then 0%R else (Rabs (a - b) / (norm a b / 2))%R.
Definition similar (a b : R) : Prop := a = b \/ (Rabs (a - b) < Rmax abs_th (epsilon * norm a b))%R.
(** [d] is the greatest of [err a b] over the pairs of [l] (0 if there is none). *)
Definition greatest (err : R -> R -> R) (l : list (R * R)) (d : R) : Prop :=
  (forall a b, In (a, b) l -> (err a b <= d)%R) /\ (l = [] /\ d = 0%R \/ exists a b, In (a, b) l /\ err a b = d).
(** The values of two files at the same places. *)
Fixpoint places (L1 L2 : list (list R)) : list (R * R) :=
  match L1, L2 with l1 :: r1, l2 :: r2 => combine l1 l2 ++ places r1 r2 | _, _ => [] end.
Definition same_shape (L1 L2 : list (list R)) : Prop := Forall2 (fun l1 l2 => length l1 = length l2) L1 L2.

(** ** The code. *)
Definition fsub (a b : fl) : fl :=
  match a, b with
  | Fin x, Fin y => Fin (x - y)
  | Inf s, Inf t => if Bool.eqb s t then NaN else Inf s
  | Inf s, Fin _ => Inf s
  | Fin _, Inf t => Inf (negb t)
  | _, _ => NaN
  end.
Definition fabs (a : fl) : fl := match a with Fin x => Fin (Rabs x) | Inf _ => Inf false | NaN => NaN end.
(** Addition of absolute values. *)
Definition fadd (a b : fl) : fl :=
  match a, b with Fin x, Fin y => Fin (x + y) | NaN, _ | _, NaN => NaN | _, _ => Inf false end.
(** Division of an absolute value by a positive finite number. *)
Definition fdiv (a b : fl) : fl :=
  match a, b with Fin x, Fin y => Fin (x / y) | Inf s, Fin _ => Inf s | Fin _, Inf _ => Fin 0 | _, _ => NaN end.
Definition fscale (c : R) (a : fl) : fl := match a with Fin x => Fin (c * x) | x => x end.
(** a < b and a == b: false on NaN. *)
Definition flt (a b : fl) : bool :=
  match a, b with
  | Fin x, Fin y => if Rlt_dec x y then true else false
  | Fin _, Inf t => negb t
  | Inf s, Fin _ => s
  | Inf s, Inf t => s && negb t
  | _, _ => false
  end.
Definition feq (a b : fl) : bool :=
  match a, b with
  | Fin x, Fin y => if Req_EM_T x y then true else false
  | Inf s, Inf t => Bool.eqb s t
  | _, _ => false
  end.
(** Python's max(a, b) and min(a, b): the first of the two unless the other is
    strictly better. *)
Definition pmax (a b : fl) : fl := if flt a b then b else a.
Definition pmin (a b : fl) : fl := if flt b a then b else a.
(** compare.py:28-47. *)
Definition compare_floats (a b : fl) : bool * fl * fl :=
  let diff := fabs (fsub a b) in
  if feq a b then (true, diff, Fin 0)
  else let n := pmin (fadd (fabs a) (fabs b)) (Fin fmax) in
       let rel := if feq n (Fin 0) then Fin 0 else fdiv diff (fscale (/ 2) n) in
       if flt diff (pmax (Fin abs_th) (fscale epsilon n)) then (true, diff, rel) else (false, diff, rel).
(** str.split(" "), str.strip() (ASCII blanks). *)
Fixpoint split_on (c : ascii) (l : list ascii) : list (list ascii) :=
  match l with
  | [] => [[]]
  | x :: r => if Ascii.eqb x c then [] :: split_on c r
              else match split_on c r with h :: t => (x :: h) :: t | [] => [[x]] end
  end.
Definition blank (c : ascii) : bool := let n := Z.of_nat (nat_of_ascii c) in (n =? 32) || (9 <=? n) && (n <=? 13).
Fixpoint drop_blank (l : list ascii) : list ascii := match l with c :: r => if blank c then drop_blank r else l | [] => [] end.
Definition strip (l : list ascii) : list ascii := rev (drop_blank (rev (drop_blank l))).
(** float.fromhex: blanks around the number are dropped.  Of its spellings of
    infinities and NaN, those C and Python write.  None: ValueError. *)
Definition parse (l : list ascii) : option fl :=
  let s := string_of_list_ascii (strip l) in
  match fromhex s with
  | Some q => Some (Fin (Q2R q))
  | None => if String.eqb s "nan" || String.eqb s "-nan" then Some NaN
            else if String.eqb s "inf" then Some (Inf false) else if String.eqb s "-inf" then Some (Inf true) else None
  end.
Fixpoint parse_all (l : list (list ascii)) : option (list fl) :=
  match l with [] => Some [] | t :: r => match parse t, parse_all r with Some v, Some vs => Some (v :: vs) | _, _ => None end end.

Section Compare.
  (** np.float32: any rounding (compare.py:53-56). *)
  Context (float32 : fl -> fl).
  (** compare.py:50-57: for other precisions the numbers are kept. *)
  Definition preprocess_line (line precision : string) : option (list fl) :=
    match parse_all (filter (fun t => match strip t with [] => false | _ => true end) (split_on " " (list_ascii_of_string line))) with
    | Some vs => Some (if String.eqb precision "float" then map float32 vs else vs)
    | None => None
    end.
  (** compare.py:60-83, the loop from an index; None: IndexError (values_f2[j]). *)
  Fixpoint compare_values (l1 l2 : list fl) (ok : bool) (d r : fl) : option (bool * fl * fl) :=
    match l1 with
    | [] => Some (ok, d, r)
    | a :: r1 => match l2 with
                 | [] => None
                 | b :: r2 => let '(c, diff, rel) := compare_floats a b in
                              compare_values r1 r2 (c && ok) (pmax diff d) (pmax rel r)
                 end
    end.
  Definition compare_lines (line1 line2 precision : string) : option (bool * fl * fl) :=
    match preprocess_line line1 precision, preprocess_line line2 precision with
    | Some l1, Some l2 => compare_values l1 l2 true (Fin 0) (Fin 0)
    | _, _ => None
    end.
  (** compare.py:86-124, the loop on the zip of the two files and of
      range(nb_tests + 1), from the line number [k]. *)
  Fixpoint compare_from (k : Z) (f1 f2 : list string) (nb_tests : Z) (precision : string) (ok : bool) (d r : fl) : option (bool * fl * fl) :=
    match f1, f2 with
    | line1 :: g1, line2 :: g2 =>
        if k <? nb_tests + 1 then
          match compare_lines line1 line2 precision with
          | None => None
          | Some (c, dl, rl) =>
              if k =? nb_tests then Some (c && ok, pmax dl d, pmax rl r)
              else compare_from (k + 1) g1 g2 nb_tests precision (c && ok) (pmax dl d) (pmax rl r)
          end
        else Some (ok, d, r)
    | _, _ => Some (ok, d, r)
    end.
  Definition compare_files (f1 f2 : list string) (nb_tests : Z) (precision : string) : option (bool * fl * fl) :=
    compare_from 0 f1 f2 nb_tests precision true (Fin 0) (Fin 0).
  (** compare.py:127-139: what is printed. *)
  Definition printed (f1 f2 : list string) (nb_tests : Z) (precision : string) : option (fl * fl) :=
    match compare_files f1 f2 nb_tests precision with Some (_, d, r) => Some (d, r) | None => None end.
End Compare.

(** ** The files compared. *)
(** neural_network.py:583-585: the values joined by a blank, then a blank from
    the first print, a blank and the newline from the second. *)
Definition newline : ascii := ascii_of_nat 10.
Fixpoint join (l : list (list ascii)) : list ascii := match l with [] => [] | [t] => t | t :: r => t ++ " "%char :: join r end.
Definition python_line (ds : list double) : string :=
  string_of_list_ascii (join (map (fun d => list_ascii_of_string (data2c d)) ds) ++ [" "; " "; newline]%char).
(** printf "%a" (glibc): as float.hex without the final zeros of the fraction,
    and without the point if nothing is left after it.  A float is converted to
    double by the call. *)
Fixpoint drop_zeros (l : list ascii) : list ascii := match l with c :: r => if Ascii.eqb c "0" then drop_zeros r else l | [] => [] end.
Definition short (l : list ascii) : list ascii := match rev (drop_zeros (rev l)) with [] => [] | fs => "."%char :: fs end.
Definition printf_a (d : double) : list ascii :=
  match d with
  | DZero neg => minus neg ++ list_ascii_of_string "0x0p+0"
  | DFinite neg lead fr e =>
      minus neg ++ ["0"; "x"]%char ++ [hex_char lead] ++ short (hex_digits 13 fr) ++ ["p"%char] ++
      [if e <? 0 then "-"%char else "+"%char] ++ dec_digits 4 (Z.abs e)
  | DInf neg => minus neg ++ list_ascii_of_string "inf"
  | DNan => list_ascii_of_string "nan"
  end.
(** template_main_file.c.tpl:59-75: each value and a blank, the newline after
    the last one (nn_output_size is positive). *)
Definition c_line (ds : list double) : string :=
  string_of_list_ascii (flat_map (fun d => printf_a d ++ [" "%char]) ds ++ [newline]).

(** ** For the statements. *)
(** [d] is a binary64 number of value [x]. *)
Definition finite (d : double) (x : R) : Prop := binary64 d /\ exists v, value d = Some v /\ Q2R v = x.
(** [x] is not rounded by the requested precision. *)
Definition exact_in (float32 : fl -> fl) (precision : string) (x : R) : Prop := precision = "float"%string -> float32 (Fin x) = Fin x.
