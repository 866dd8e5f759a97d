(** * Activation functions.
    The generator emits C source text; this file models that text as a token
    list, together with a parser for the fragment of C expressions the text is
    written in (C11 6.5: conditional, relational, additive, multiplicative,
    unary and primary expressions with their precedence and left
    associativity), so that precedence mistakes in the emitted text would be
    visible.  Numbers are those of [N]; that C literals such as "1." are
    doubles (evaluation in double precision, then conversion) is not modelled,
    nor are NaN and signed zeros in comparisons. *)
From Coq Require Import ZArith List Lia Bool.
Import ListNotations.
Open Scope Z_scope.
From Verif Require Import CMem Tensor Num.

Inductive fn := Fexp | Fexpf | Flog.

Section Activation.
  Context (N : num).
  Notation V := (T N).
  Notation mem := (mem V).

  Inductive tok :=
  | TId (k : nat)          (* an lvalue such as dotproduct, ctx->tensor_temp[k], sum, count *)
  | TLit (v : V)           (* an unsigned literal *)
  | TFn (f : fn)
  | TLpar | TRpar | TPlus | TMinus | TStar | TSlash | TLt | TGt | TQuest | TColon.

  Inductive expr :=
  | EId (k : nat) | ELit (v : V) | ECall (f : fn) (a : expr) | ENeg (a : expr)
  | EAdd (a b : expr) | ESub (a b : expr) | EMul (a b : expr) | EDiv (a b : expr)
  | ELt (a b : expr) | EGt (a b : expr) | ECond (c a b : expr).

  (** Recursive-descent parser; [fuel] bounds the recursion depth. *)
  Fixpoint p_cond (fuel : nat) (ts : list tok) : option (expr * list tok) :=
    match fuel with O => None | S f =>
      match p_rel f ts with
      | Some (c, TQuest :: r1) =>
          match p_cond f r1 with
          | Some (a, TColon :: r2) =>
              match p_cond f r2 with Some (b, r3) => Some (ECond c a b, r3) | None => None end
          | _ => None
          end
      | o => o
      end
    end
  with p_rel (fuel : nat) (ts : list tok) : option (expr * list tok) :=
    match fuel with O => None | S f =>
      match p_add f ts with Some (a, r) => p_rel_rest f a r | None => None end
    end
  with p_rel_rest (fuel : nat) (a : expr) (ts : list tok) : option (expr * list tok) :=
    match fuel with O => None | S f =>
      match ts with
      | TLt :: r => match p_add f r with Some (b, r') => p_rel_rest f (ELt a b) r' | None => None end
      | TGt :: r => match p_add f r with Some (b, r') => p_rel_rest f (EGt a b) r' | None => None end
      | _ => Some (a, ts)
      end
    end
  with p_add (fuel : nat) (ts : list tok) : option (expr * list tok) :=
    match fuel with O => None | S f =>
      match p_mul f ts with Some (a, r) => p_add_rest f a r | None => None end
    end
  with p_add_rest (fuel : nat) (a : expr) (ts : list tok) : option (expr * list tok) :=
    match fuel with O => None | S f =>
      match ts with
      | TPlus :: r => match p_mul f r with Some (b, r') => p_add_rest f (EAdd a b) r' | None => None end
      | TMinus :: r => match p_mul f r with Some (b, r') => p_add_rest f (ESub a b) r' | None => None end
      | _ => Some (a, ts)
      end
    end
  with p_mul (fuel : nat) (ts : list tok) : option (expr * list tok) :=
    match fuel with O => None | S f =>
      match p_unary f ts with Some (a, r) => p_mul_rest f a r | None => None end
    end
  with p_mul_rest (fuel : nat) (a : expr) (ts : list tok) : option (expr * list tok) :=
    match fuel with O => None | S f =>
      match ts with
      | TStar :: r => match p_unary f r with Some (b, r') => p_mul_rest f (EMul a b) r' | None => None end
      | TSlash :: r => match p_unary f r with Some (b, r') => p_mul_rest f (EDiv a b) r' | None => None end
      | _ => Some (a, ts)
      end
    end
  with p_unary (fuel : nat) (ts : list tok) : option (expr * list tok) :=
    match fuel with O => None | S f =>
      match ts with
      | TMinus :: r => match p_unary f r with Some (a, r') => Some (ENeg a, r') | None => None end
      | TId k :: r => Some (EId k, r)
      | TLit v :: r => Some (ELit v, r)
      | TFn g :: TLpar :: r =>
          match p_cond f r with Some (a, TRpar :: r') => Some (ECall g a, r') | _ => None end
      | TLpar :: r =>
          match p_cond f r with Some (a, TRpar :: r') => Some (a, r') | _ => None end
      | _ => None
      end
    end.

  (** Each parser level consumes one unit of fuel, hence the factor. *)
  Definition parse (ts : list tok) : option expr :=
    match p_cond (8 * S (length ts)) ts with Some (e, []) => Some e | _ => None end.

  Definition call (f : fn) : V -> V := match f with Fexp | Fexpf => nexp N | Flog => nlog N end.

  (** A relation used as a number is 1 or 0; a number used as a condition is
      true when it differs from 0. *)
  Fixpoint eval (env : nat -> V) (e : expr) : V :=
    match e with
    | EId k => env k
    | ELit v => v
    | ECall f a => call f (eval env a)
    | ENeg a => nopp N (eval env a)
    | EAdd a b => nadd N (eval env a) (eval env b)
    | ESub a b => nsub N (eval env a) (eval env b)
    | EMul a b => nmul N (eval env a) (eval env b)
    | EDiv a b => ndiv N (eval env a) (eval env b)
    | ELt a b => if nlt N (eval env a) (eval env b) then n1 N else n0 N
    | EGt a b => if nlt N (eval env b) (eval env a) then n1 N else n0 N
    | ECond c a b =>
        let t := match c with
                 | ELt x y => nlt N (eval env x) (eval env y)
                 | EGt x y => nlt N (eval env y) (eval env x)
                 | _ => let v := eval env c in nlt N v (n0 N) || nlt N (n0 N) v
                 end in
        if t then eval env a else eval env b
    end.

  (** Value of the C expression [ts]; [None] if it is not a well-formed expression. *)
  Definition c_value (ts : list tok) (env : nat -> V) : option V :=
    match parse ts with Some e => Some (eval env e) | None => None end.

  (** ** The activation functions, generator/activation_functions.py. *)
  Inductive activation :=
  | Sigmoid | Silu | ReLu | LeakyReLu (alpha : V) | TanH | LinearAct
  | Exponential | Logarithm | Clip (max min : V).

  (** Constructors' checks: activation_functions.py:148-150 (alpha < 0) and
      :255-262 (min > max) raise ValueError. *)
  Definition accepted (a : activation) : Prop :=
    match a with
    | LeakyReLu alpha => nlt N alpha (n0 N) = false
    | Clip mx mn => nlt N mx mn = false
    | _ => True
    end.

  (** Python's str() of a number. *)
  Definition str (v : V) : list tok :=
    if nlt N v (n0 N) then [TMinus; TLit (nopp N v)] else [TLit v].
  Let two := nofZ N 2.

  (** write_activation_str; [x] is the text of local_var. *)
  Definition write_activation_str (a : activation) (x : list tok) : list tok :=
    match a with
    (* :94-96 (x < 0) ? (expf(x) / (1. + expf(x))) : (1. / (1. + expf(-x))) *)
    | Sigmoid =>
        [TLpar] ++ x ++ [TLt; TLit (n0 N); TRpar; TQuest; TLpar; TFn Fexpf; TLpar] ++ x ++
        [TRpar; TSlash; TLpar; TLit (n1 N); TPlus; TFn Fexpf; TLpar] ++ x ++ [TRpar; TRpar; TRpar; TColon;
         TLpar; TLit (n1 N); TSlash; TLpar; TLit (n1 N); TPlus; TFn Fexpf; TLpar; TMinus] ++ x ++ [TRpar; TRpar; TRpar]
    (* :112-114 x / (1 + exp(-x)) *)
    | Silu => x ++ [TSlash; TLpar; TLit (n1 N); TPlus; TFn Fexp; TLpar; TMinus] ++ x ++ [TRpar; TRpar]
    (* :129-132 x > 0 ? x : 0 *)
    | ReLu => x ++ [TGt; TLit (n0 N); TQuest] ++ x ++ [TColon; TLit (n0 N)]
    (* :158-161 x > 0. ? x : alpha*x *)
    | LeakyReLu alpha => x ++ [TGt; TLit (n0 N); TQuest] ++ x ++ [TColon] ++ str alpha ++ [TStar] ++ x
    (* :183-185 (x < 0.) ? (expf(2.*x) - 1.) / (expf(2.*x) + 1.)
                         : (1. - expf(-2.*x)) / (1. + expf(-2.*x)) *)
    | TanH =>
        [TLpar] ++ x ++ [TLt; TLit (n0 N); TRpar; TQuest;
         TLpar; TFn Fexpf; TLpar; TLit two; TStar] ++ x ++ [TRpar; TMinus; TLit (n1 N); TRpar; TSlash;
         TLpar; TFn Fexpf; TLpar; TLit two; TStar] ++ x ++ [TRpar; TPlus; TLit (n1 N); TRpar; TColon;
         TLpar; TLit (n1 N); TMinus; TFn Fexpf; TLpar; TMinus; TLit two; TStar] ++ x ++ [TRpar; TRpar; TSlash;
         TLpar; TLit (n1 N); TPlus; TFn Fexpf; TLpar; TMinus; TLit two; TStar] ++ x ++ [TRpar; TRpar]
    (* :200-202 *)
    | LinearAct => x
    (* :218-220 exp(x) *)
    | Exponential => [TFn Fexp; TLpar] ++ x ++ [TRpar]
    (* :236-238 log(x) *)
    | Logarithm => [TFn Flog; TLpar] ++ x ++ [TRpar]
    (* :268-285 x > max ? max : (x < min ? min : x) *)
    | Clip mx mn =>
        x ++ [TGt] ++ str mx ++ [TQuest] ++ str mx ++ [TColon; TLpar] ++ x ++ [TLt] ++ str mn ++
        [TQuest] ++ str mn ++ [TColon] ++ x ++ [TRpar]
    end.

  (** numpy's maximum and minimum (without NaN). *)
  Definition np_maximum (a b : V) : V := if nlt N a b then b else a.
  Definition np_minimum (a b : V) : V := if nlt N b a then b else a.

  (** compute, on one element of the array. *)
  Definition compute (a : activation) (z : V) : V :=
    match a with
    (* :85-92 *)
    | Sigmoid =>
        let expmz := nexp N z in
        let x := ndiv N expmz (nadd N (n1 N) expmz) in
        let y := ndiv N (n1 N) (nadd N (n1 N) (nexp N (nopp N z))) in
        if nlt N z (n0 N) then x else y
    (* :108-110 *)
    | Silu => ndiv N z (nadd N (n1 N) (nexp N (nopp N z)))
    (* :125-127 *)
    | ReLu => np_maximum (n0 N) z
    (* :150-156 *)
    | LeakyReLu alpha => if nlt N z (n0 N) then nmul N alpha z else z
    (* :172-181 *)
    | TanH =>
        let exp2z := nexp N (nmul N two z) in
        let expm2z := nexp N (nmul N (nopp N two) z) in
        let x := ndiv N (nsub N exp2z (n1 N)) (nadd N exp2z (n1 N)) in
        let y := ndiv N (nsub N (n1 N) expm2z) (nadd N (n1 N) expm2z) in
        if nlt N z (n0 N) then x else y
    (* :196-198 *)
    | LinearAct => z
    (* :214-216 *)
    | Exponential => nexp N z
    (* :232-234 *)
    | Logarithm => nlog N z
    (* :264-266 np.clip(z, min, max) = minimum(maximum(z, min), max) *)
    | Clip mx mn => np_minimum (np_maximum z mn) mx
    end.

  (** The function computed by the emitted expression when local_var is a
      single lvalue of value [v] (0 if the text were not an expression). *)
  Definition c_act (a : activation) (v : V) : V :=
    match c_value (write_activation_str a [TId 0]) (fun _ => v) with Some r => r | None => n0 N end.

  (** ** Activation layer.  activation_layers/ActivationLayerDefault.py:40-57:
      for (k = 0; k < size; ++k) ctx->output_path[k] = f(ctx->input[k]); *)
  Definition activation_c (src out : bname) (size : Z) (a : activation) (m : mem) : option mem :=
    for_ size (fun k m =>
      v <- rd m src k ;;
      r <- c_value (write_activation_str a [TId 0]) (fun _ => v) ;;
      wr m out k r) m.

  (** activation_layers/ActivationLayer.py:68-76 *)
  Definition activation_py (a : activation) (x : list V) : list V := map (compute a) x.
End Activation.
Arguments TId {N}. Arguments TLit {N}. Arguments TFn {N}. Arguments TSlash {N}.
Arguments Sigmoid {N}. Arguments Silu {N}. Arguments ReLu {N}. Arguments LeakyReLu {N}. Arguments TanH {N}.
Arguments LinearAct {N}. Arguments Exponential {N}. Arguments Logarithm {N}. Arguments Clip {N}.

(** Laws of the order used by LeakyReLu and Clip. *)
Record order_laws (N : num) : Prop := {
  lt_irrefl : forall a, nlt N a a = false;
  lt_trans : forall a b c, nlt N a b = true -> nlt N b c = true -> nlt N a c = true;
  lt_total : forall a b, nlt N a b = false -> nlt N b a = false -> a = b
}.
