(** * The types of C: what is computed in float and what in double (C86).
    Activations are emitted as C expressions (generator/activation_functions.py:90-290)
    whose literals and calls of exp and log are double and whose calls of expf are
    float, on variables of type data_type.  Here these expressions are evaluated
    with the usual arithmetic conversions of C: an operation on two floats is
    rounded to float, on a float and a double to double; the assignment of the
    result to a variable rounds it to the type of the variable.
    Simplifications: no overflow, no infinity, zeros are not signed; exp, expf, log
    and sqrt are rounded correctly; a literal written without a point (1, 0, and an
    integer alpha, max or min) is treated as a double: all of these are exact, and
    are combined with a double or stored unchanged except an integer alpha, whose
    product with a float the program would round once instead of twice. *)
From Coq Require Import ZArith List Lia Bool Reals Lra.
From Flocq Require Import Core.
From Verif Require FloatFormats.
From Verif Require Import Num RealInst Activation Rounding Decimal DoublePrecision.
Import ListNotations.
Open Scope R_scope.

Inductive ctype := CFloat | CDouble.
Definition to_type (t : ctype) : R -> R := match t with CFloat => to_binary32 | CDouble => to_binary64 end.
Definition wider (t u : ctype) : ctype := match t, u with CFloat, CFloat => CFloat | _, _ => CDouble end.
(** C's conversions, 6.3.1.8 of the standard: the type of the operands, then the operation. *)
Definition typed_op (op : R -> R -> R) (a b : ctype * R) : ctype * R :=
  let t := wider (fst a) (fst b) in (t, to_type t (op (snd a) (snd b))).
Definition is_true (b : bool) : ctype * R := (CFloat, if b then 1 else 0).

Section Eval.
  Context (t : ctype). (* data_type: the type of the variables *)
  Fixpoint typed_eval (env : nat -> R) (e : expr Rnum) : ctype * R :=
    match e with
    | EId _ k => (t, env k)
    | ELit _ v => (CDouble, to_binary64 v)
    | ECall _ Fexpf a => (CFloat, expf (snd (typed_eval env a)))
    | ECall _ Fexp a => (CDouble, to_binary64 (exp (snd (typed_eval env a))))
    | ECall _ Flog a => (CDouble, to_binary64 (ln (snd (typed_eval env a))))
    | ENeg _ a => let (u, v) := typed_eval env a in (u, - v)
    | EAdd _ a b => typed_op Rplus (typed_eval env a) (typed_eval env b)
    | ESub _ a b => typed_op Rminus (typed_eval env a) (typed_eval env b)
    | EMul _ a b => typed_op Rmult (typed_eval env a) (typed_eval env b)
    | EDiv _ a b => typed_op Rdiv (typed_eval env a) (typed_eval env b)
    | ELt _ a b => is_true (Rltb (snd (typed_eval env a)) (snd (typed_eval env b)))
    | EGt _ a b => is_true (Rltb (snd (typed_eval env b)) (snd (typed_eval env a)))
    | ECond _ c a b =>
        let (ta, va) := typed_eval env a in let (tb, vb) := typed_eval env b in
        let v := snd (typed_eval env c) in
        (wider ta tb, if Rltb v 0 || Rltb 0 v then va else vb)
    end.
  (** variable = expression; *)
  Definition assigned (ts : list (tok Rnum)) (env : nat -> R) : option R :=
    match parse Rnum ts with Some e => Some (to_type t (snd (typed_eval env e))) | None => None end.
  (** output[k] = f(input[k]); for an input[k] of value z. *)
  Definition activated (a : activation Rnum) (z : R) : option R :=
    assigned (write_activation_str Rnum a [TId 0]) (fun _ => z).
End Eval.

(** templates/layers/template_Softmax.c.tpl:2-9, the one-dimensional layer: [sum] is
    of type data_type, exp a double. *)
Fixpoint exp_sum (t : ctype) (sum : R) (x : list R) : R :=
  match x with
  | [] => sum
  | z :: x' => exp_sum t (to_type t (to_binary64 (sum + to_binary64 (exp z)))) x'
  end.
Definition typed_softmax (t : ctype) (x : list R) : list R :=
  let sum := exp_sum t 0 x in map (fun z => to_type t (to_binary64 (to_binary64 (exp z) / sum))) x.

(** templates/layers/template_BatchNormalization.c.tpl:6: one element; the product is
    of type data_type, sqrt, epsilon and hence the quotient and the sum are double. *)
Definition typed_batchnorm (t : ctype) (scale mean var bias epsilon x : R) : R :=
  let prod := to_type t (scale * to_type t (x - mean)) in
  let deviation := to_binary64 (sqrt (to_binary64 (var + to_binary64 epsilon))) in
  to_type t (to_binary64 (to_binary64 (prod / deviation) + bias)).

(** ** Specification: what the other activations compute, and the literals of their
    text, which are Python floats. *)
Definition meant (a : activation Rnum) (z : R) : R :=
  match a with
  | Sigmoid => 1 / (1 + exp (- z))
  | TanH => (exp z - exp (- z)) / (exp z + exp (- z))
  | Silu => z / (1 + exp (- z))
  | ReLu => Rmax 0 z
  | LeakyReLu alpha => if Rlt_dec 0 z then z else alpha * z
  | LinearAct => z
  | Exponential => exp z
  | Logarithm => ln z
  | Clip max min => Rmax min (Rmin z max)
  end.
Definition python_floats (a : activation Rnum) : Prop :=
  match a with
  | LeakyReLu alpha => to_binary64 alpha = alpha
  | Clip max min => to_binary64 max = max /\ to_binary64 min = min
  | _ => True
  end.

(** A float program as a format of C78: exp and log are those of double. *)
Lemma float_exp_err x : Rabs (to_binary32 (to_binary64 (exp x)) - exp x) <= / 8388608 * exp x + bpow radix2 (-149).
Proof.
  assert (A := @FloatFormats.nearest_err 53 (-1074) eq_refl (exp x)). rewrite FloatFormats.unit_half, FloatFormats.least_half in A. change (FloatFormats.nearest 53 (-1074)) with to_binary64 in A.
  assert (B := @FloatFormats.nearest_err 24 (-149) eq_refl (to_binary64 (exp x))). rewrite FloatFormats.unit_half, FloatFormats.least_half in B. change (FloatFormats.nearest 24 (-149)) with to_binary32 in B.
  change (bpow radix2 (- (24))) with (/ 16777216) in B. change (-149 - 1)%Z with (-150)%Z in B. change (- (53))%Z with (-53)%Z in A. change (-1074 - 1)%Z with (-1075)%Z in A.
  assert (K : bpow radix2 (-53) <= / 16777216 * / 100) by (apply Rle_trans with (bpow radix2 (-31)); [apply bpow_le; lia|change (bpow radix2 (-31)) with (/ 2147483648); lra]).
  assert (T : bpow radix2 (-1075) <= bpow radix2 (-151)) by (apply bpow_le; lia).
  assert (T1 : bpow radix2 (-149) = 4 * bpow radix2 (-151)) by (change (-149)%Z with (2 + -151)%Z; rewrite bpow_plus; reflexivity). assert (T2 : bpow radix2 (-150) = 2 * bpow radix2 (-151)) by (change (-150)%Z with (1 + -151)%Z; rewrite bpow_plus; reflexivity).
  pose proof (exp_pos x) as P. rewrite (Rabs_pos_eq (exp x)) in A by lra. set (e := exp x) in *. set (y := to_binary64 e) in *. set (t := bpow radix2 (-151)) in *. assert (T0 : 0 < t) by apply bpow_gt_0.
  assert (KE : bpow radix2 (-53) * e <= / 16777216 * / 100 * e) by (apply Rmult_le_compat_r; lra).
  assert (Y : Rabs y <= e + / 16777216 * / 100 * e + t) by (replace y with ((y - e) + e) by ring; eapply Rle_trans; [apply Rabs_triang|]; rewrite (Rabs_pos_eq e) by lra; lra).
  replace (to_binary32 y - e) with ((to_binary32 y - y) + (y - e)) by ring. eapply Rle_trans; [apply Rabs_triang|]. lra.
Qed.
Lemma float_err x : Rabs (to_binary32 x - x) <= / 16777216 * Rabs x + bpow radix2 (-149).
Proof.
  assert (B := @FloatFormats.nearest_err 24 (-149) eq_refl x). rewrite FloatFormats.unit_half, FloatFormats.least_half in B. eapply Rle_trans; [exact B|]. apply Rplus_le_compat_l. apply bpow_le. lia.
Qed.
Lemma double_exp_nonneg x : 0 <= to_binary64 (exp x).
Proof. rewrite <- (@FloatFormats.nearest_0 53 (-1074)). apply (@FloatFormats.nearest_mono 53 (-1074) eq_refl). left. apply exp_pos. Qed.
Definition float_program : format :=
  mkFormat to_binary32 (/ 16777216) (bpow radix2 (-149)) (fun x => to_binary64 (exp x)) (/ 8388608) (fun x => to_binary64 (ln x)) tanh
    ltac:(lra) (bpow_ge_0 _ _) ltac:(lra) (@FloatFormats.nearest_0 24 (-149)) (@FloatFormats.nearest_1 24 (-149) eq_refl ltac:(discriminate)) (@FloatFormats.nearest_idem 24 (-149) eq_refl)
    (@FloatFormats.nearest_mono 24 (-149) eq_refl) (round_NE_opp radix2 (FLT_exp (-149) 24)) float_err double_exp_nonneg float_exp_err.
Definition double_program : format := FloatFormats.binary64.
(** An activation, its literals being taken in a format. *)
Definition in_format (F : format) (a : activation Rnum) : activation (fnum F) :=
  match a with
  | Sigmoid => Sigmoid | Silu => Silu | ReLu => ReLu | LeakyReLu alpha => @LeakyReLu (fnum F) (fl F alpha) | TanH => TanH
  | LinearAct => LinearAct | Exponential => Exponential | Logarithm => Logarithm | Clip max min => @Clip (fnum F) (fl F max) (fl F min)
  end.
Definition program_format (t : ctype) : format := match t with CFloat => float_program | CDouble => double_program end.
