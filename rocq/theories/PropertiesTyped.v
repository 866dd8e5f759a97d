(** * C86: the expressions of a float program, with C's conversions. *)
From Coq Require Import ZArith List Lia Bool Reals Lra.
From Flocq Require Import Core.
From Verif Require Import Num RealInst Activation PropertiesActivation Rounding FloatFormats Decimal DecimalProofs DoublePrecision PropertiesDouble Typed.
Import ListNotations.
Open Scope R_scope.

Local Notation r32 := to_binary32.
Local Notation r64 := to_binary64.
Lemma to_0 t : to_type t 0 = 0.
Proof. destruct t; [apply (@nearest_0 24 (-149))|apply (@nearest_0 53 (-1074))]. Qed.
Lemma to_1 t : to_type t 1 = 1.
Proof. destruct t; [apply (@nearest_1 24 (-149) eq_refl ltac:(discriminate))|apply (@nearest_1 53 (-1074) eq_refl ltac:(discriminate))]. Qed.
Lemma r64_typed t z : to_type t z = z -> r64 z = z.
Proof. destruct t; cbn [to_type]; intros <-; [apply r64_r32|apply (@nearest_idem 53 (-1074) eq_refl)]. Qed.
Lemma cond_true (b : bool) : (Rltb (if b then 1 else 0) 0 || Rltb 0 (if b then 1 else 0)) = b.
Proof. unfold Rltb. destruct b; repeat match goal with |- context [Rlt_dec ?a ?b] => destruct (Rlt_dec a b) end; try reflexivity; lra. Qed.
(** The types: an operation with a double operand. *)
Lemma op_l op a b t : typed_op op (CDouble, a) (t, b) = (CDouble, r64 (op a b)).
Proof. reflexivity. Qed.
Lemma op_r op a b t : typed_op op (t, a) (CDouble, b) = (CDouble, r64 (op a b)).
Proof. destruct t; reflexivity. Qed.

(** ** The parsed expressions. *)
Lemma parse_sigmoid N : parse N (write_activation_str N Sigmoid [TId 0]) =
  Some (ECond N (ELt N (EId N 0) (ELit N (n0 N)))
    (EDiv N (ECall N Fexpf (EId N 0)) (EAdd N (ELit N (n1 N)) (ECall N Fexpf (EId N 0))))
    (EDiv N (ELit N (n1 N)) (EAdd N (ELit N (n1 N)) (ECall N Fexpf (ENeg N (EId N 0)))))).
Proof. reflexivity. Qed.
Lemma parse_tanh N : parse N (write_activation_str N TanH [TId 0]) =
  let p := ECall N Fexpf (EMul N (ELit N (nofZ N 2)) (EId N 0)) in
  let m := ECall N Fexpf (EMul N (ENeg N (ELit N (nofZ N 2))) (EId N 0)) in
  Some (ECond N (ELt N (EId N 0) (ELit N (n0 N)))
    (EDiv N (ESub N p (ELit N (n1 N))) (EAdd N p (ELit N (n1 N))))
    (EDiv N (ESub N (ELit N (n1 N)) m) (EAdd N (ELit N (n1 N)) m))).
Proof. reflexivity. Qed.
Lemma parse_silu N : parse N (write_activation_str N Silu [TId 0]) =
  Some (EDiv N (EId N 0) (EAdd N (ELit N (n1 N)) (ECall N Fexp (ENeg N (EId N 0))))).
Proof. reflexivity. Qed.
Lemma parse_relu N : parse N (write_activation_str N ReLu [TId 0]) =
  Some (ECond N (EGt N (EId N 0) (ELit N (n0 N))) (EId N 0) (ELit N (n0 N))).
Proof. reflexivity. Qed.

(** In both programs, the value of the expression is that of a double program. *)
Lemma sigmoid_double t z : to_type t z = z -> exists v,
  c_value double_expf (write_activation_str double_expf Sigmoid [TId 0]) (fun _ => fl FloatFormats.binary64 z) = Some v /\
  activated t Sigmoid z = Some (to_type t (val v)).
Proof.
  intros H. pose proof (r64_typed t z H) as Z. unfold activated, assigned, c_value. rewrite !parse_sigmoid. eexists. split; [reflexivity|]. do 2 f_equal.
  cbn [typed_eval eval]. unfold is_true. cbn [n0 n1 Rnum double_expf].
  pose proof (to_0 CDouble) as R0. pose proof (to_1 CDouble) as R1. cbn [to_type] in R0, R1.
  rewrite R0, R1. rewrite !op_l, !op_r. cbn [snd fst wider]. rewrite cond_true.
  assert (V : forall y, val (fl FloatFormats.binary64 y) = r64 y) by reflexivity.
  cbn [nlt nexp nadd ndiv call double_expf]. unfold nopp. cbn [nsub n0 double_expf]. rewrite !V, R0, Z.
  destruct (Rltb z 0); rewrite !V, ?R1, ?R0, ?Z.
  - unfold expf. rewrite !r64_r32. reflexivity.
  - rewrite r64_opp, Z. unfold expf. rewrite !r64_r32. reflexivity.
Qed.
Lemma r64_2 : r64 2 = 2.
Proof. replace 2 with (2 * 1) by ring. apply r64_double. exact (to_1 CDouble). Qed.
Lemma tanh_double t z : to_type t z = z -> exists v,
  c_value double_expf (write_activation_str double_expf TanH [TId 0]) (fun _ => fl FloatFormats.binary64 z) = Some v /\
  activated t TanH z = Some (to_type t (val v)).
Proof.
  intros H. pose proof (r64_typed t z H) as Z. unfold activated, assigned, c_value. rewrite !parse_tanh. eexists. split; [reflexivity|]. do 2 f_equal.
  cbn [typed_eval eval]. unfold is_true. cbn [n0 n1 nofZ Rnum double_expf].
  pose proof (to_0 CDouble) as R0. pose proof (to_1 CDouble) as R1. cbn [to_type] in R0, R1.
  rewrite R0, R1, r64_2. repeat (first [rewrite !op_l|rewrite !op_r]; cbn [snd fst wider]). rewrite cond_true.
  assert (V : forall y, val (fl FloatFormats.binary64 y) = r64 y) by reflexivity.
  assert (D : r64 (2 * z) = 2 * z) by (apply r64_double; exact Z).
  assert (D' : r64 (- (2) * z) = - (2) * z) by (replace (- (2) * z) with (0 - 2 * z) by ring; rewrite r64_opp, D; ring).
  cbn [nlt nexp nadd ndiv nmul call double_expf]. unfold nopp. cbn [nsub n0 double_expf]. rewrite !V, R0, Z.
  destruct (Rltb z 0); rewrite !V, ?R1, ?R0, ?r64_2, ?Z, ?r64_opp, ?r64_2, ?D, ?D'; unfold expf; rewrite !r64_r32; reflexivity.
Qed.
(** Storing a number of at most 2 costs at most 2^-23. *)
Lemma stored t v x e : Rabs x <= 1 -> Rabs (v - x) <= e -> e <= 1 / 2 -> Rabs (to_type t v - x) <= e + 2 * u24.
Proof.
  intros X E E2. assert (U : 0 < u24 < / 1000000) by (unfold u24; lra). assert (B : Rabs v <= 3 / 2) by (replace v with ((v - x) + x) by ring; eapply Rle_trans; [apply Rabs_triang|]; lra).
  assert (S : Rabs (to_type t v - v) <= 2 * u24).
  { destruct t; cbn [to_type]; [eapply Rle_trans; [apply r32_err|]; nra|eapply Rle_trans; [apply r64_err|]]. pose proof (Rabs_pos v). assert (u24 * u24 <= u24 * / 1000000) by (apply Rmult_le_compat_l; lra). nra. }
  replace (to_type t v - x) with ((to_type t v - v) + (v - x)) by ring. eapply Rle_trans; [apply Rabs_triang|]. lra.
Qed.

(** Sigmoid, as the text of the program computes it with C's conversions, in a float
    program and in a double program, for any number of the data type. *)
Theorem C78_sigmoid : forall t z, to_type t z = z -> exists v,
  activated t Sigmoid z = Some v /\ Rabs (v - 1 / (1 + exp (- z))) <= / 2 ^ 20.
Proof.
  intros t z H. destruct (sigmoid_double t z H) as (v & E & EA). rewrite EA. eexists. split; [reflexivity|].
  destruct (C83_sigmoid (fl FloatFormats.binary64 z)) as (v' & E' & B). rewrite E in E'. injection E' as <-.
  change (val (fl FloatFormats.binary64 z)) with (r64 z) in B. rewrite (r64_typed t z H) in B.
  pose proof (exp_pos (- z)) as P. assert (S : 0 <= 1 / (1 + exp (- z)) <= 1).
  { split; [apply Rlt_le, Rdiv_lt_0_compat; lra|]. apply Rmult_le_reg_r with (1 + exp (- z)); [lra|]. unfold Rdiv. rewrite Rmult_assoc, Rinv_l by lra. lra. }
  eapply Rle_trans; [apply (stored t _ _ (/ 2 ^ 21)); [rewrite Rabs_pos_eq by lra; lra|exact B|]|]; unfold u24; lra.
Qed.
Print Assumptions C78_sigmoid.
Theorem C86_tanh : forall t z, to_type t z = z -> exists v,
  activated t TanH z = Some v /\ Rabs (v - (exp z - exp (- z)) / (exp z + exp (- z))) <= / 2 ^ 19.
Proof.
  intros t z H. destruct (tanh_double t z H) as (v & E & EA). rewrite EA. eexists. split; [reflexivity|].
  destruct (C83_tanh (fl FloatFormats.binary64 z)) as (v' & E' & B). rewrite E in E'. injection E' as <-.
  change (val (fl FloatFormats.binary64 z)) with (r64 z) in B. rewrite (r64_typed t z H) in B.
  pose proof (exp_pos (- z)) as P. pose proof (exp_pos z) as P'. assert (S : Rabs ((exp z - exp (- z)) / (exp z + exp (- z))) <= 1).
  { unfold Rdiv. rewrite Rabs_mult, (Rabs_pos_eq (/ _)) by (left; apply Rinv_0_lt_compat; lra). apply Rmult_le_reg_r with (exp z + exp (- z)); [lra|]. rewrite Rmult_assoc, Rinv_l by lra. rewrite Rmult_1_r, Rmult_1_l. apply Rabs_le. lra. }
  eapply Rle_trans; [apply (stored t _ _ (/ 2 ^ 20)); [exact S|exact B|]|]; unfold u24; lra.
Qed.
Print Assumptions C86_tanh.

(** ** The other activations. *)
Definition tiny : R := bpow radix2 (-150).
Lemma r64_fine x : Rabs (r64 x - x) <= u24 * u24 * Rabs x + tiny.
Proof.
  pose proof (@nearest_err 53 (-1074) eq_refl x) as N. rewrite unit_half, least_half in N. change (- (53))%Z with (-53)%Z in N. change (-1074 - 1)%Z with (-1075)%Z in N.
  assert (E : bpow radix2 (-24 + -24) = u24 * u24) by (rewrite bpow_plus; reflexivity).
  assert (A : bpow radix2 (-53) <= u24 * u24) by (rewrite <- E; apply bpow_le; lia).
  assert (B : bpow radix2 (-1075) <= tiny) by (apply bpow_le; lia).
  pose proof (Rabs_pos x). eapply Rle_trans; [exact N|]. apply Rplus_le_compat; [|exact B]. apply Rmult_le_compat_r; assumption.
Qed.
Lemma to_fine t x : Rabs (to_type t x - x) <= u24 * Rabs x + tiny.
Proof.
  destruct t; cbn [to_type].
  - pose proof (@nearest_err 24 (-149) eq_refl x) as N. rewrite unit_half, least_half in N. exact N.
  - eapply Rle_trans; [apply r64_fine|]. apply Rplus_le_compat_r. apply Rmult_le_compat_r; [apply Rabs_pos|]. unfold u24. lra.
Qed.
Lemma tiny_pos : 0 < tiny. Proof. apply bpow_gt_0. Qed.
(** A double within 6 * 2^-48 of a number, stored. *)
Lemma stored_relative t y x : Rabs (y - x) <= 6 * (u24 * u24) * Rabs x + tiny -> Rabs (to_type t (r64 y) - x) <= 2 * u24 * Rabs x + 4 * tiny.
Proof.
  intros H. pose proof (r64_fine y) as A. pose proof (to_fine t (r64 y)) as B. pose proof tiny_pos as T.
  pose proof (Rabs_pos x) as X. assert (U : 0 < u24 < / 1000000) by (unfold u24; lra).
  assert (Y : Rabs y <= Rabs x + 6 * (u24 * u24) * Rabs x + tiny) by (replace y with ((y - x) + x) at 1 by ring; eapply Rle_trans; [apply Rabs_triang|]; lra).
  assert (R : Rabs (r64 y) <= Rabs y + u24 * u24 * Rabs y + tiny) by (replace (r64 y) with ((r64 y - y) + y) at 1 by ring; eapply Rle_trans; [apply Rabs_triang|]; lra).
  replace (to_type t (r64 y) - x) with ((to_type t (r64 y) - r64 y) + ((r64 y - y) + (y - x))) by ring.
  eapply Rle_trans; [apply Rabs_triang|]. eapply Rle_trans; [apply Rplus_le_compat_l, Rabs_triang|].
  assert (K : 0 <= u24 * u24 <= u24 * / 1000000) by (split; [apply Rmult_le_pos; lra|apply Rmult_le_compat_l; lra]).
  set (k := u24 * u24) in *. set (g := u24) in *. set (ax := Rabs x) in *. set (ay := Rabs y) in *. set (ar := Rabs (r64 y)) in *.
  assert (K1 : 0 <= k * ax <= g * ax * / 1000000) by (split; [apply Rmult_le_pos; lra|replace (g * ax * / 1000000) with (g * / 1000000 * ax) by ring; apply Rmult_le_compat_r; lra]).
  assert (Y1 : ay <= 1.1 * ax + tiny) by nra.
  assert (K2 : k * ay <= 1.1 * (k * ax) + tiny * / 1000000) by nra.
  assert (R1 : ar <= 1.0001 * ax + 3 * tiny) by nra.
  assert (R2 : g * ar <= 1.0001 * (g * ax) + tiny * 0.01) by nra.
  nra.
Qed.
Lemma quarter : 4 * tiny = / 2 ^ 148.
Proof. unfold tiny. replace 4 with (bpow radix2 2) by reflexivity. rewrite <- bpow_plus. rewrite pow_IZR. reflexivity. Qed.
Lemma parse_linear N : parse N (write_activation_str N LinearAct [TId 0]) = Some (EId N 0).
Proof. reflexivity. Qed.
Lemma parse_exp N : parse N (write_activation_str N Exponential [TId 0]) = Some (ECall N Fexp (EId N 0)).
Proof. reflexivity. Qed.
Lemma parse_log N : parse N (write_activation_str N Logarithm [TId 0]) = Some (ECall N Flog (EId N 0)).
Proof. reflexivity. Qed.
Definition lit (N : num) (v : T N) : expr N := if nlt N v (n0 N) then ENeg N (ELit N (nopp N v)) else ELit N v.
Lemma parse_leaky N alpha : nlt N alpha (n0 N) = false -> parse N (write_activation_str N (LeakyReLu alpha) [TId 0]) =
  Some (ECond N (EGt N (EId N 0) (ELit N (n0 N))) (EId N 0) (EMul N (ELit N alpha) (EId N 0))).
Proof. intros H. unfold write_activation_str, str. rewrite H. reflexivity. Qed.
Lemma parse_clip N mx mn : parse N (write_activation_str N (Clip mx mn) [TId 0]) =
  Some (ECond N (EGt N (EId N 0) (lit N mx)) (lit N mx) (ECond N (ELt N (EId N 0) (lit N mn)) (lit N mn) (EId N 0))).
Proof. unfold write_activation_str, str, lit. destruct (nlt N mx (n0 N)), (nlt N mn (n0 N)); reflexivity. Qed.
Lemma typed_lit t env v : r64 v = v -> typed_eval t env (lit Rnum v) = (CDouble, v).
Proof.
  intros H. unfold lit. change (nlt Rnum) with Rltb. change (n0 Rnum) with 0. change (nopp Rnum v) with (0 - v). destruct (Rltb v 0); cbn [typed_eval].
  - rewrite r64_opp, H. f_equal. apply Ropp_involutive.
  - rewrite H. reflexivity.
Qed.

(** The activations other than Sigmoid and TanH, in a float or a double program: one
    rounding to the data type (2^-24 in float), a few to double.  Only Logarithm asks
    for a positive number. *)
Theorem C86_activations : forall t a z, to_type t z = z -> accepted Rnum a -> python_floats a ->
  match a with Sigmoid | TanH => False | Logarithm => 0 < z | _ => True end ->
  exists v, activated t a z = Some v /\ Rabs (v - meant a z) <= / 2 ^ 23 * Rabs (meant a z) + / 2 ^ 148.
Proof.
  intros t a z H AC PF OK. pose proof (r64_typed t z H) as Z. rewrite <- quarter. replace (/ 2 ^ 23) with (2 * u24) by (unfold u24; lra).
  pose proof (to_0 CDouble) as R0. pose proof (to_1 CDouble) as R1. cbn [to_type] in R0, R1. pose proof tiny_pos as T. assert (U : 0 < u24 < / 1000000) by (unfold u24; lra).
  assert (EXACT : forall x : R, Rabs (x - x) <= 2 * u24 * Rabs x + 4 * tiny) by (intros x; rewrite Rminus_diag_eq, Rabs_R0 by reflexivity; pose proof (Rabs_pos x); nra).
  assert (ONE : forall y, Rabs (to_type t (r64 y) - y) <= 2 * u24 * Rabs y + 4 * tiny).
  { intros y. apply stored_relative. rewrite Rminus_diag_eq, Rabs_R0 by reflexivity. pose proof (Rabs_pos y). assert (0 <= u24 * u24) by nra. nra. }
  unfold activated, assigned. destruct a; try contradiction; cbn [accepted python_floats meant] in *.
  - (* Silu *) rewrite parse_silu. eexists. split; [reflexivity|]. cbn [typed_eval n1 Rnum]. rewrite !op_l, !op_r. cbn [snd]. rewrite R1.
    apply stored_relative. set (E := exp (- z)). assert (EP : 0 < E) by apply exp_pos. set (k := u24 * u24). assert (K : 0 < k < / 1000000) by (unfold k, u24; lra).
    pose proof (r64_err E) as A. fold k in A. rewrite (Rabs_pos_eq E) in A by lra.
    assert (E0 : 0 <= r64 E) by (rewrite <- R0; apply (@nearest_mono 53 (-1074) eq_refl); lra).
    pose proof (r64_err (1 + r64 E)) as B. fold k in B. rewrite (Rabs_pos_eq (1 + r64 E)) in B by lra. set (d := r64 (1 + r64 E)) in *. set (e := r64 E) in *.
    assert (D1 : Rabs (d - (1 + E)) <= 4 * k * (1 + E)).
    { apply Rabs_le_inv in A. replace (d - (1 + E)) with ((d - (1 + e)) + (e - E)) by ring. eapply Rle_trans; [apply Rabs_triang|]. assert (X : Rabs (e - E) <= k * (E + 1)) by (apply Rabs_le; exact A). nra. }
    assert (D0 : 1 + E <= 1.0001 * d) by (apply Rabs_le_inv in D1; nra). assert (DP : 0 < d) by lra.
    replace (z / d - z / (1 + E)) with (z / (1 + E) * (((1 + E) - d) / d)) by (field; lra). rewrite Rabs_mult.
    assert (Q : Rabs ((1 + E - d) / d) <= 5 * k).
    { unfold Rdiv. rewrite Rabs_mult, (Rabs_pos_eq (/ d)) by (left; apply Rinv_0_lt_compat; exact DP). rewrite Rabs_minus_sym. apply Rmult_le_reg_r with d; [exact DP|]. rewrite Rmult_assoc, Rinv_l, Rmult_1_r by lra. eapply Rle_trans; [exact D1|]. nra. }
    pose proof (Rabs_pos (z / (1 + E))). nra.
  - (* ReLu *) rewrite parse_relu. eexists. split; [reflexivity|]. cbn [typed_eval n0 Rnum]. unfold is_true. rewrite R0. cbn [snd]. rewrite cond_true.
    assert (M : (if Rltb 0 z then z else 0) = Rmax 0 z) by (unfold Rltb, Rmax; destruct (Rlt_dec 0 z), (Rle_dec 0 z); lra). rewrite M.
    assert (X : to_type t (Rmax 0 z) = Rmax 0 z) by (unfold Rmax; destruct (Rle_dec 0 z); [exact H|apply to_0]). rewrite X. apply EXACT.
  - (* LeakyReLu *) rewrite parse_leaky by exact AC. eexists. split; [reflexivity|]. cbn [typed_eval n0 Rnum]. unfold is_true. rewrite R0, PF, !op_l. cbn [snd]. rewrite cond_true.
    unfold Rltb. destruct (Rlt_dec 0 z); [rewrite H; apply EXACT|apply ONE].
  - (* Linear *) eexists. split; [reflexivity|]. cbn [typed_eval snd]. rewrite H. apply EXACT.
  - (* Exponential *) eexists. split; [reflexivity|]. cbn [typed_eval snd]. apply ONE.
  - (* Logarithm *) eexists. split; [reflexivity|]. cbn [typed_eval snd]. apply ONE.
  - (* Clip *) destruct PF as (P1 & P2). rewrite parse_clip. eexists. split; [reflexivity|]. cbn [typed_eval]. unfold is_true. rewrite !typed_lit by assumption. cbn [snd]. rewrite !cond_true.
    change (nlt Rnum max min = false) with (Rltb max min = false) in AC. 
    assert (M : (if Rltb max z then max else if Rltb z min then min else z) = Rmax min (Rmin z max)).
    { revert AC. unfold Rltb, Rmax, Rmin. destruct (Rlt_dec max min), (Rlt_dec max z), (Rlt_dec z min), (Rle_dec z max); intros AC; try discriminate AC; destruct (Rle_dec min _); lra. }
    match goal with |- Rabs (to_type t ?e - _) <= _ => assert (M' : e = Rmax min (Rmin z max)) by exact M end. rewrite M'. assert (X : r64 (Rmax min (Rmin z max)) = Rmax min (Rmin z max)) by (unfold Rmax, Rmin; destruct (Rle_dec z max), (Rle_dec min _); assumption).
    rewrite <- X at 1. apply ONE.
Qed.
Print Assumptions C86_activations.

(** ** Softmax. *)
Definition low : R := bpow radix2 (-120).
Lemma tiny_low e : low <= e -> tiny <= u24 * / 64 * e.
Proof.
  intros H. apply Rle_trans with (u24 * / 64 * low); [right|apply Rmult_le_compat_l; [unfold u24; lra|exact H]]. unfold tiny, low.
  replace (u24 * / 64) with (bpow radix2 (-30)) by (unfold u24; change (bpow radix2 (-30)) with (/ 1073741824); lra). rewrite <- bpow_plus. reflexivity.
Qed.
Lemma exp_low z : -64 <= z -> low <= exp z.
Proof.
  intros H. apply Rle_trans with (exp (-64)); [|destruct H as [H|<-]; [left; apply exp_increasing; exact H|right; reflexivity]].
  assert (P : forall n, exp (INR n) <= 3 ^ n).
  { induction n as [|n IH]; [right; apply exp_0|]. rewrite S_INR, exp_plus. cbn [pow]. rewrite Rmult_comm. pose proof exp_le_3. pose proof (exp_pos (INR n)). pose proof (exp_pos 1). apply Rmult_le_compat; lra. }
  specialize (P 64%nat). replace (INR 64) with 64 in P by (rewrite INR_IZR_INZ; reflexivity). replace (-64) with (- (64)) by lra. rewrite exp_Ropp. replace low with (/ bpow radix2 120) by (unfold low; rewrite <- bpow_opp; reflexivity).
  apply Rinv_le_contravar; [apply exp_pos|]. eapply Rle_trans; [exact P|]. rewrite pow_IZR. change (bpow radix2 120) with (IZR (2 ^ 120)). apply IZR_le. vm_compute. discriminate.
Qed.
Lemma sum_step t s e : 0 <= s -> low <= e -> let v := to_type t (r64 (s + r64 e)) in
  (1 - 2 * u24) * (s + e) <= v /\ v * (1 - 2 * u24) <= s + e.
Proof.
  intros S E v. pose proof (tiny_low e E) as T. assert (L : 0 < low) by apply bpow_gt_0. assert (U : 0 < u24 < / 1000000) by (unfold u24; lra).
  pose proof (r64_fine e) as A. pose proof (r64_fine (s + r64 e)) as B. pose proof (to_fine t (r64 (s + r64 e))) as C. fold v in C.
  rewrite (Rabs_pos_eq e) in A by lra. set (k := u24 * u24) in *. assert (K : 0 < k <= u24 * / 1000000) by (unfold k; split; [apply Rmult_lt_0_compat; lra|apply Rmult_le_compat_l; lra]).
  set (g := u24) in *. set (f := r64 e) in *.
  assert (KE : k * e <= g * / 1000000 * e) by (apply Rmult_le_compat_r; lra).
  assert (GE : 0 < g * e) by (apply Rmult_lt_0_compat; lra). assert (GS : 0 <= g * s) by (apply Rmult_le_pos; lra).
  assert (GE' : g * e <= / 1000000 * e) by (apply Rmult_le_compat_r; lra). assert (GS' : g * s <= / 1000000 * s) by (apply Rmult_le_compat_r; lra).
  apply Rabs_le_inv in A. assert (F : Rabs (f - e) <= 0.02 * (g * e)) by (apply Rabs_le; lra). apply Rabs_le_inv in F.
  set (w := s + f) in *. assert (W : 0 <= w) by (unfold w; lra). rewrite (Rabs_pos_eq w W) in B.
  assert (KW : k * w <= g * / 1000000 * w) by (apply Rmult_le_compat_r; lra).
  assert (GW : g * w <= g * s + 1.0001 * (g * e)) by (unfold w; nra). assert (GW0 : 0 <= g * w) by nra.
  apply Rabs_le_inv in B. assert (R : Rabs (r64 w - w) <= 0.02 * (g * e) + 0.0001 * (g * s)) by (apply Rabs_le; lra). apply Rabs_le_inv in R.
  set (x := r64 w) in *. assert (X : 0 <= x) by (unfold w in *; lra). rewrite (Rabs_pos_eq x X) in C.
  assert (GX : g * x <= 1.001 * (g * s) + 1.001 * (g * e)) by nra.
  apply Rabs_le_inv in C. assert (V : Rabs (v - (s + e)) <= 1.1 * (g * s) + 1.1 * (g * e)) by (apply Rabs_le; unfold w in *; lra). apply Rabs_le_inv in V.
  split; [nra|]. assert (G2 : v * g >= 0.9 * (g * s) + 0.9 * (g * e)) by nra. assert (G3 : 0.6 * (g * s) + 0.6 * (g * e) <= v * g) by lra. nra.
Qed.
Definition total (x : list R) : R := fold_right Rplus 0 (map exp x).
Lemma total_nonneg x : 0 <= total x.
Proof. induction x as [|a x IH]; cbn; [lra|]. pose proof (exp_pos a). unfold total in IH. lra. Qed.
Lemma exp_sum_bounds t x : (forall z, In z x -> -64 <= z) -> forall s S c, 0 < c <= 1 -> 0 <= S -> 0 <= s -> c * S <= s -> s * c <= S ->
  let c' := c * (1 - 2 * u24) ^ length x in
  0 <= exp_sum t s x /\ c' * (S + total x) <= exp_sum t s x /\ exp_sum t s x * c' <= S + total x.
Proof.
  assert (U : 0 < u24 < / 1000000) by (unfold u24; lra).
  induction x as [|z x IH]; intros HX s S c Hc HS Hs H1 H2; cbn [exp_sum length pow total map fold_right].
  - cbv zeta. rewrite Rmult_1_r, Rplus_0_r. tauto.
  - assert (Hz : low <= exp z) by (apply exp_low, HX; left; reflexivity). pose proof (sum_step t s (exp z) Hs Hz) as SS. cbv zeta in SS. destruct SS as (L1 & L2).
    set (v := to_type t (r64 (s + r64 (exp z)))) in *. set (d := 1 - 2 * u24) in *. assert (D : 0 < d <= 1) by (unfold d; lra). pose proof (exp_pos z) as EP.
    assert (V : 0 <= v) by (assert (0 <= d * (s + exp z)) by (apply Rmult_le_pos; lra); lra).
    specialize (IH (fun y Hy => HX y (or_intror Hy)) v (S + exp z) (c * d)). cbv zeta in IH. replace (c * (d * d ^ length x)) with (c * d * d ^ length x) by ring.
    replace (S + (exp z + fold_right Rplus 0 (map exp x))) with (S + exp z + total x) by (unfold total; ring). cbv zeta. apply IH; try lra.
    + split; [apply Rmult_lt_0_compat; lra|]. assert (c * d <= 1 * 1) by (apply Rmult_le_compat; lra). lra.
    + assert (c * (S + exp z) <= s + exp z) by nra. apply Rle_trans with (d * (s + exp z)); [|exact L1]. replace (c * d * (S + exp z)) with (d * (c * (S + exp z))) by ring. apply Rmult_le_compat_l; lra.
    + replace (v * (c * d)) with (c * (v * d)) by ring. apply Rle_trans with (c * (s + exp z)); [apply Rmult_le_compat_l; lra|]. nra.
Qed.
Lemma bernoulli d n : 0 <= d <= 1 -> 1 - INR n * d <= (1 - d) ^ n <= 1.
Proof.
  intros D. induction n as [|n (IH & IH')]; [cbn; lra|]. rewrite S_INR. cbn [pow]. pose proof (pos_INR n).
  assert (0 <= (1 - d) ^ n) by (apply pow_le; lra). split; [|assert ((1 - d) * (1 - d) ^ n <= 1 * 1) by (apply Rmult_le_compat; lra); lra].
  assert ((1 - d) * (1 - INR n * d) <= (1 - d) * (1 - d) ^ n) by (apply Rmult_le_compat_l; lra). assert (0 <= INR n * (d * d)) by (apply Rmult_le_pos; [assumption|apply Rmult_le_pos; lra]). lra.
Qed.
Lemma total_in z x : In z x -> exp z <= total x.
Proof.
  induction x as [|a x IH]; intros H; [destruct H|destruct H as [<-|H]]; cbn.
  - pose proof (total_nonneg x) as T. unfold total in T. lra.
  - specialize (IH H). unfold total in IH. pose proof (exp_pos a). lra.
Qed.

(** Softmax on any number of elements up to 2^20, the sum being kept in a variable of
    the data type: the relative error grows as the number of elements. *)
Theorem C86_softmax : forall t x, INR (length x) <= 2 ^ 20 -> (forall z, In z x -> -64 <= z) ->
  Forall2 (fun z y => let p := exp z / fold_right Rplus 0 (map exp x) in
    Rabs (y - p) <= INR (length x + 1) / 2 ^ 22 * p + / 2 ^ 148) x (typed_softmax t x).
Proof.
  intros t x HN HX. unfold typed_softmax. cbv zeta. fold (total x).
  pose proof (exp_sum_bounds t x HX 0 0 1) as B. cbv zeta in B. rewrite !Rmult_1_l, !Rplus_0_l in B. destruct B as (B0 & B1 & B2); try lra.
  set (sum := exp_sum t 0 x) in *. assert (U : 0 < u24 < / 1000000) by (unfold u24; lra).
  pose proof (bernoulli (2 * u24) (length x) ltac:(lra)) as (C1 & C2). set (c := (1 - 2 * u24) ^ length x) in *. rewrite plus_INR. set (n := INR (length x)) in *.
  assert (N0 : 0 <= n) by apply pos_INR. replace (2 ^ 20) with 1048576 in HN by lra.
  assert (ND : n * (2 * u24) <= / 8) by (unfold u24; lra). rewrite <- quarter. replace ((n + INR 1) / 2 ^ 22) with ((n + 1) * (4 * u24)) by (cbn [INR]; unfold u24; lra).
  assert (ALL : forall l, (forall z, In z l -> In z x) -> Forall2 (fun z y => Rabs (y - exp z / total x) <= (n + 1) * (4 * u24) * (exp z / total x) + 4 * tiny) l (map (fun z => to_type t (r64 (r64 (exp z) / sum))) l)); [|apply ALL; auto].
  induction l as [|z l IH]; intros HL; cbn [map]; constructor; [|apply IH; intros y Hy; apply HL; right; exact Hy].
  assert (Hz : In z x) by (apply HL; left; reflexivity). clear IH. pose proof (exp_low z (HX z Hz)) as LZ. pose proof (tiny_low _ LZ) as TL. pose proof (exp_pos z) as EP.
  pose proof (total_in z x Hz) as TZ. set (S := total x) in *. set (e := exp z) in *.
  assert (S0 : 0 < S) by lra. assert (C0 : 7 / 8 <= c) by lra. assert (M0 : 0 < sum) by (assert (0 < c * S) by (apply Rmult_lt_0_compat; lra); lra).
  pose proof (r64_fine e) as A. rewrite (Rabs_pos_eq e) in A by lra. set (k := u24 * u24) in *. assert (K : 0 < k <= u24 * / 1000000) by (unfold k; split; [apply Rmult_lt_0_compat; lra|apply Rmult_le_compat_l; lra]).
  set (g := u24) in *. set (f := r64 e) in *. assert (KE : k * e <= g * / 1000000 * e) by (apply Rmult_le_compat_r; lra). assert (F : Rabs (f - e) <= 0.02 * g * e) by (assert (0 < g * e) by (apply Rmult_lt_0_compat; lra); lra).
  apply Rabs_le_inv in F. assert (GE : g * e <= / 1000000 * e) by (apply Rmult_le_compat_r; lra).
  set (p := e / S). assert (P0 : 0 < p) by (apply Rdiv_lt_0_compat; lra). assert (PS : p * S = e) by (unfold p; field; lra).
  set (q := f / sum). assert (QS : q * sum = f) by (unfold q; field; lra). assert (F0 : 0 <= f) by lra.
  assert (Q0 : 0 <= q) by (unfold q; apply Rmult_le_pos; [exact F0|left; apply Rinv_0_lt_compat; exact M0]).
  set (y := n * (2 * g)) in *. assert (Y0 : 0 <= y) by (unfold y; apply Rmult_le_pos; lra). assert (Y : y = n * (2 * g)) by reflexivity. clearbody y.
  (* q <= p * (1 + 0.02 g) / c <= p * (1 + 1.15 y + 0.03 g) *)
  assert (QU : q * c <= p * (1 + 0.02 * g)).
  { apply Rmult_le_reg_r with S; [exact S0|]. replace (p * (1 + 0.02 * g) * S) with (p * S * (1 + 0.02 * g)) by ring. rewrite PS. apply Rle_trans with (q * sum); [replace (q * c * S) with (q * (c * S)) by ring; apply Rmult_le_compat_l; assumption|]. rewrite QS. lra. }
  assert (QL : p * (1 - 0.02 * g) * c <= q).
  { apply Rmult_le_reg_r with sum; [exact M0|]. rewrite QS. replace (p * (1 - 0.02 * g) * c * sum) with (p * (1 - 0.02 * g) * (sum * c)) by ring. apply Rle_trans with (p * (1 - 0.02 * g) * S); [apply Rmult_le_compat_l; [apply Rmult_le_pos; lra|exact B2]|]. replace (p * (1 - 0.02 * g) * S) with (p * S * (1 - 0.02 * g)) by ring. rewrite PS. lra. }
  assert (PG : 0 <= p * g <= / 1000000 * p) by (split; [apply Rmult_le_pos; lra|rewrite Rmult_comm; apply Rmult_le_compat_r; lra]).
  assert (PY : 0 <= p * y <= / 8 * p) by (split; [apply Rmult_le_pos; lra|rewrite Rmult_comm; apply Rmult_le_compat_r; lra]).
  assert (QU' : q <= p + 1.15 * (p * y) + 0.03 * (p * g)).
  { assert (q * (1 - y) <= q * c) by (apply Rmult_le_compat_l; lra). apply Rmult_le_reg_r with (1 - y); [lra|]. apply Rle_trans with (p * (1 + 0.02 * g)); [lra|].
    assert (Z1 : p * y * y <= / 8 * (p * y)) by (rewrite (Rmult_comm (/ 8)); apply Rmult_le_compat_l; lra). assert (Z2 : p * g * y <= / 8 * (p * g)) by (rewrite (Rmult_comm (/ 8)); apply Rmult_le_compat_l; lra). lra. }
  assert (QL' : p - p * y - 0.02 * (p * g) <= q).
  { apply Rle_trans with (p * (1 - 0.02 * g) * c); [|exact QL]. apply Rle_trans with (p * (1 - 0.02 * g) * (1 - y)); [|apply Rmult_le_compat_l; [apply Rmult_le_pos; lra|exact C1]].
    assert (0 <= p * g * y) by (apply Rmult_le_pos; lra). lra. }
  assert (QP : q <= 1.2 * p) by lra.
  pose proof (r64_fine q) as R1. change (u24 * u24) with k in R1. rewrite (Rabs_pos_eq q Q0) in R1. pose proof (to_fine t (r64 q)) as R2. fold g in R2. pose proof tiny_pos as T0.
  assert (KQ : k * q <= g * / 1000000 * q) by (apply Rmult_le_compat_r; lra). assert (GQ : g * q <= 1.2 * (p * g)) by (apply Rle_trans with (g * (1.2 * p)); [apply Rmult_le_compat_l; lra|lra]).
  assert (GQ0 : 0 <= g * q) by (apply Rmult_le_pos; lra).
  assert (R1' : Rabs (r64 q - q) <= 0.001 * (p * g) + tiny) by lra.
  assert (R64 : Rabs (r64 q) <= q + 0.001 * (p * g) + tiny) by (replace (r64 q) with ((r64 q - q) + q) by ring; eapply Rle_trans; [apply Rabs_triang|]; rewrite (Rabs_pos_eq q Q0); lra).
  assert (R2' : Rabs (to_type t (r64 q) - r64 q) <= 1.3 * (p * g) + 2 * tiny).
  { eapply Rle_trans; [exact R2|]. assert (G : g * Rabs (r64 q) <= g * (q + 0.001 * (p * g) + tiny)) by (apply Rmult_le_compat_l; lra). assert (g * (p * g) <= / 1000000 * (p * g)) by (apply Rmult_le_compat_r; lra). assert (g * tiny <= / 1000000 * tiny) by (apply Rmult_le_compat_r; lra). lra. }
  assert (R3 : Rabs (q - p) <= 1.15 * (p * y) + 0.03 * (p * g)) by (apply Rabs_le; lra).
  replace (to_type t (r64 q) - p) with ((to_type t (r64 q) - r64 q) + ((r64 q - q) + (q - p))) by ring.
  eapply Rle_trans; [apply Rabs_triang|]. eapply Rle_trans; [apply Rplus_le_compat_l, Rabs_triang|].
  assert (EY : (n + 1) * (4 * g) * p = 2 * (p * y) + 4 * (p * g)) by (rewrite Y; ring). rewrite EY. lra.
Qed.
Print Assumptions C86_softmax.

(** ** BatchNormalization: one element, in a float or a double program. *)
Lemma sqrt_near V a h : 0 < V -> 0 <= h <= 1 -> Rabs (a - V) <= h * V -> Rabs (sqrt a - sqrt V) <= h * sqrt V.
Proof.
  intros HV Hh H. apply Rabs_le_inv in H. assert (SV : 0 < sqrt V) by (apply sqrt_lt_R0; exact HV). pose proof (sqrt_sqrt V ltac:(lra)) as SS.
  assert (LO : (1 - h) * sqrt V <= sqrt a).
  { rewrite <- (sqrt_Rsqr ((1 - h) * sqrt V)) by (apply Rmult_le_pos; lra). apply sqrt_le_1_alt. unfold Rsqr. replace ((1 - h) * sqrt V * ((1 - h) * sqrt V)) with ((1 - h) * (1 - h) * (sqrt V * sqrt V)) by ring. rewrite SS.
    apply Rle_trans with ((1 - h) * V); [apply Rmult_le_compat_r; [lra|]; nra|lra]. }
  assert (HI : sqrt a <= (1 + h) * sqrt V).
  { rewrite <- (sqrt_Rsqr ((1 + h) * sqrt V)) by (apply Rmult_le_pos; lra). apply sqrt_le_1_alt. unfold Rsqr. replace ((1 + h) * sqrt V * ((1 + h) * sqrt V)) with ((1 + h) * (1 + h) * (sqrt V * sqrt V)) by ring. rewrite SS.
    apply Rle_trans with ((1 + h) * V); [lra|apply Rmult_le_compat_r; [lra|]; nra]. }
  apply Rabs_le. lra.
Qed.
Theorem C86_batchnorm : forall t scale mean var bias epsilon x,
  to_binary64 epsilon = epsilon -> / 2 ^ 40 <= var + epsilon -> Rabs scale <= 2 ^ 20 ->
  let y := scale * (x - mean) / sqrt (var + epsilon) in
  Rabs (typed_batchnorm t scale mean var bias epsilon x - (y + bias)) <= / 2 ^ 22 * (Rabs y + Rabs bias) + / 2 ^ 100.
Proof.
  intros t s mean var b ep x HE HV HS y. unfold typed_batchnorm. rewrite HE. cbv zeta.
  set (V := var + ep) in *. set (D := sqrt V) in *. set (X := x - mean) in *. set (X' := to_type t X). set (P := to_type t (s * X')). set (a := r64 V). set (d := r64 (sqrt a)).
  assert (U : 0 < u24 < / 1000000) by (unfold u24; lra). assert (T : 0 < tiny) by apply tiny_pos.
  set (k := u24 * u24). assert (K : 0 < k <= u24 * / 1000000) by (unfold k; split; [apply Rmult_lt_0_compat; lra|apply Rmult_le_compat_l; lra]).
  assert (T40 : tiny <= k * / 2 ^ 41).
  { unfold tiny, k. replace (u24 * u24) with (bpow radix2 (-48)) by (change (-48)%Z with (-24 + -24)%Z; rewrite bpow_plus; reflexivity). replace (/ 2 ^ 41) with (bpow radix2 (-41)) by (rewrite pow_IZR; reflexivity). rewrite <- bpow_plus. apply bpow_le. lia. }
  assert (P40 : / 2 ^ 41 <= / 2 ^ 40) by lra. assert (V0 : 0 < V) by (assert (0 < / 2 ^ 40) by lra; lra).
  assert (A : Rabs (a - V) <= 2 * k * V).
  { eapply Rle_trans; [apply r64_fine|]. fold k. rewrite (Rabs_pos_eq V) by lra. assert (k * / 2 ^ 41 <= k * V) by (apply Rmult_le_compat_l; lra). lra. }
  pose proof (sqrt_near V a (2 * k) V0 ltac:(lra) A) as SA. fold D in SA. assert (D20 : / 2 ^ 20 <= D).
  { unfold D. rewrite <- (sqrt_Rsqr (/ 2 ^ 20)) by lra. apply sqrt_le_1_alt. unfold Rsqr. rewrite <- Rinv_mult. rewrite <- pow_add. exact HV. }
  assert (D0 : 0 < D) by lra. assert (KD : 0 < k * D <= / 1000000 * D) by (split; [apply Rmult_lt_0_compat; lra|apply Rmult_le_compat_r; lra]).
  assert (DD : Rabs (d - D) <= 4 * (k * D)).
  { pose proof (r64_fine (sqrt a)) as R. fold k in R. rewrite (Rabs_pos_eq _ (sqrt_pos a)) in R. fold d in R. assert (SA' := Rabs_le_inv _ _ SA).
    assert (KS : k * sqrt a <= 1.1 * (k * D)) by (apply Rle_trans with (k * (1.1 * D)); [apply Rmult_le_compat_l; lra|lra]).
    assert (TD : tiny <= 0.5 * (k * D)) by (apply Rle_trans with (k * / 2 ^ 41); [exact T40|]; apply Rle_trans with (k * (0.5 * D)); [apply Rmult_le_compat_l; lra|lra]).
    replace (d - D) with ((d - sqrt a) + (sqrt a - D)) by ring. eapply Rle_trans; [apply Rabs_triang|]. lra. }
  assert (DD' := Rabs_le_inv _ _ DD). assert (Hd : D <= 1.001 * d) by lra. assert (d0 : 0 < d) by lra.
  (* the product *)
  assert (PX : Rabs (P - s * X) <= 2.1 * u24 * Rabs (s * X) + 2 ^ 21 * tiny).
  { pose proof (to_fine t X) as R1. fold X' in R1. pose proof (to_fine t (s * X')) as R2. fold P in R2.
    assert (E1 : Rabs (s * X' - s * X) <= u24 * Rabs (s * X) + 2 ^ 20 * tiny).
    { replace (s * X' - s * X) with (s * (X' - X)) by ring. rewrite !Rabs_mult. apply Rle_trans with (Rabs s * (u24 * Rabs X + tiny)); [apply Rmult_le_compat_l; [apply Rabs_pos|exact R1]|]. assert (Rabs s * tiny <= 2 ^ 20 * tiny) by (apply Rmult_le_compat_r; lra). lra. }
    assert (E2 : Rabs (s * X') <= Rabs (s * X) + u24 * Rabs (s * X) + 2 ^ 20 * tiny) by (replace (s * X') with ((s * X' - s * X) + s * X) at 1 by ring; eapply Rle_trans; [apply Rabs_triang|]; lra).
    pose proof (Rabs_pos (s * X)) as AX. set (ax := Rabs (s * X)) in *. assert (G : 0 <= u24 * ax <= / 1000000 * ax) by (split; [apply Rmult_le_pos; lra|apply Rmult_le_compat_r; lra]).
    assert (E3 : u24 * Rabs (s * X') <= u24 * (ax + u24 * ax + 2 ^ 20 * tiny)) by (apply Rmult_le_compat_l; lra).
    assert (E4 : u24 * (u24 * ax) <= / 1000000 * (u24 * ax)) by (apply Rmult_le_compat_r; lra). assert (E5 : u24 * tiny <= / 1000000 * tiny) by (apply Rmult_le_compat_r; lra).
    replace (P - s * X) with ((P - s * X') + (s * X' - s * X)) by ring. eapply Rle_trans; [apply Rabs_triang|]. lra. }
  (* the quotient *)
  assert (YD : s * X = y * D) by (unfold y; field; lra). assert (AY : Rabs (s * X) = Rabs y * D) by (rewrite YD, Rabs_mult, (Rabs_pos_eq D) by lra; reflexivity).
  pose proof (Rabs_pos y) as Y0. assert (GY : 0 <= u24 * Rabs y <= / 1000000 * Rabs y) by (split; [apply Rmult_le_pos; lra|apply Rmult_le_compat_r; lra]).
  assert (KY : 0 <= k * Rabs y <= / 1000000 * (u24 * Rabs y)) by (split; [apply Rmult_le_pos; lra|replace (/ 1000000 * (u24 * Rabs y)) with (u24 * / 1000000 * Rabs y) by ring; apply Rmult_le_compat_r; lra]).
  set (Q := P / d). assert (QY : Rabs (Q - y) <= 2.2 * (u24 * Rabs y) + 2 ^ 42 * tiny).
  { replace (Q - y) with (((P - s * X) + y * (D - d)) / d) by (rewrite YD; unfold Q; field; lra). unfold Rdiv. rewrite Rabs_mult, (Rabs_pos_eq (/ d)) by (left; apply Rinv_0_lt_compat; exact d0).
    apply Rmult_le_reg_r with d; [exact d0|]. rewrite Rmult_assoc, Rinv_l, Rmult_1_r by lra. eapply Rle_trans; [apply Rabs_triang|]. rewrite Rabs_mult, (Rabs_minus_sym D d).
    assert (Z1 : Rabs y * Rabs (d - D) <= Rabs y * (4 * (k * D))) by (apply Rmult_le_compat_l; lra). rewrite AY in PX.
    assert (Z2 : k * Rabs y * D <= / 1000000 * (u24 * Rabs y) * D) by (apply Rmult_le_compat_r; lra).
    assert (Z3 : u24 * Rabs y * D <= u24 * Rabs y * (1.001 * d)) by (apply Rmult_le_compat_l; lra).
    assert (Z4 : 2 ^ 21 * tiny <= 2 ^ 42 * tiny * d). { replace (2 ^ 21 * tiny) with (2 ^ 42 * tiny * / 2 ^ 21) by lra. apply Rmult_le_compat_l; [|lra]. apply Rmult_le_pos; lra. }
    assert (Z5 : 0 <= u24 * Rabs y * d) by (apply Rmult_le_pos; lra). lra. }
  (* the two stores *)
  pose proof (Rabs_pos b) as B0. assert (GB : 0 <= u24 * Rabs b <= / 1000000 * Rabs b) by (split; [apply Rmult_le_pos; lra|apply Rmult_le_compat_r; lra]).
  assert (KB : 0 <= k * Rabs b <= / 1000000 * (u24 * Rabs b)) by (split; [apply Rmult_le_pos; lra|replace (/ 1000000 * (u24 * Rabs b)) with (u24 * / 1000000 * Rabs b) by ring; apply Rmult_le_compat_r; lra]).
  assert (KT : k * tiny <= / 1000000 * tiny) by (apply Rmult_le_compat_r; lra). assert (GT : u24 * tiny <= / 1000000 * tiny) by (apply Rmult_le_compat_r; lra).
  assert (NEXT : forall (h : R) (f : R -> R) u v e, 0 <= h <= u24 -> (forall z, Rabs (f z - z) <= h * Rabs z + tiny) -> Rabs (u - v) <= e -> Rabs (f u - v) <= e + h * (Rabs v + e) + tiny).
  { intros h f u v e Hh Hf He. assert (Rabs u <= Rabs v + e) by (replace u with ((u - v) + v) by ring; eapply Rle_trans; [apply Rabs_triang|]; lra).
    replace (f u - v) with ((f u - u) + (u - v)) by ring. eapply Rle_trans; [apply Rabs_triang|]. specialize (Hf u). assert (h * Rabs u <= h * (Rabs v + e)) by (apply Rmult_le_compat_l; lra). lra. }
  pose proof (NEXT k r64 Q y _ ltac:(lra) r64_fine QY) as N1.
  assert (KG : k * (u24 * Rabs y) <= / 1000000 * (u24 * Rabs y)) by (apply Rmult_le_compat_r; lra).
  assert (N1' : Rabs (r64 Q - y) <= 2.3 * (u24 * Rabs y) + 2 ^ 43 * tiny) by lra.
  assert (N2 : Rabs (r64 Q + b - (y + b)) <= 2.3 * (u24 * Rabs y) + 2 ^ 43 * tiny) by (replace (r64 Q + b - (y + b)) with (r64 Q - y) by ring; exact N1').
  pose proof (Rabs_triang y b) as YB. set (w := Rabs (y + b)) in *.
  pose proof (NEXT k r64 _ _ _ ltac:(lra) r64_fine N2) as N3. fold w in N3. assert (KW : k * w <= k * (Rabs y + Rabs b)) by (apply Rmult_le_compat_l; lra).
  assert (N3' : Rabs (r64 (r64 Q + b) - (y + b)) <= 2.4 * (u24 * Rabs y) + 0.1 * (u24 * Rabs b) + 2 ^ 44 * tiny) by lra.
  pose proof (NEXT u24 (to_type t) _ _ _ ltac:(lra) (to_fine t) N3') as N4. fold w in N4. assert (GW : u24 * w <= u24 * (Rabs y + Rabs b)) by (apply Rmult_le_compat_l; lra).
  assert (GG : forall z, 0 <= z -> u24 * z <= / 1000000 * z) by (intros z Hz; apply Rmult_le_compat_r; lra).
  pose proof (GG _ (proj1 GY)). pose proof (GG _ (proj1 GB)).
  replace (/ 2 ^ 22) with (4 * u24) by (unfold u24; lra). assert (T100 : 2 ^ 45 * tiny <= / 2 ^ 100).
  { unfold tiny. replace (2 ^ 45) with (bpow radix2 45) by (rewrite pow_IZR; reflexivity). replace (/ 2 ^ 100) with (bpow radix2 (-100)) by (rewrite pow_IZR; reflexivity). rewrite <- bpow_plus. apply bpow_le. lia. }
  lra.
Qed.
Print Assumptions C86_batchnorm.

(** ** Which expressions C78 covers: those that are operations of the data type. *)
Lemma float_format x : generic_format radix2 (FLT_exp (-149) 24) (r32 x).
Proof. apply (@nearest_format 24 (-149) eq_refl). Qed.
(** The product of two floats is a double. *)
Lemma float_product x y : r32 x = x -> r32 y = y -> r64 (x * y) = x * y.
Proof.
  intros X Y. assert (FX : generic_format radix2 (FLT_exp (-149) 24) x) by (rewrite <- X; apply float_format). assert (FY : generic_format radix2 (FLT_exp (-149) 24) y) by (rewrite <- Y; apply float_format).
  apply FLT_format_generic in FX; [|reflexivity]. apply FLT_format_generic in FY; [|reflexivity]. destruct FX as [[m e] E B L], FY as [[m' e'] E' B' L']. cbn [Defs.Fnum Defs.Fexp] in *.
  apply round_generic; [typeclasses eauto|]. apply generic_format_FLT. exists (Float radix2 (m * m') (e + e')); cbn [Defs.Fnum Defs.Fexp]; [|rewrite Z.abs_mul|lia].
  - rewrite E, E'. unfold F2R. cbn [Defs.Fnum Defs.Fexp]. rewrite bpow_plus, mult_IZR. ring.
  - change (radix2 ^ 24)%Z with 16777216%Z in *. change (radix2 ^ 53)%Z with 9007199254740992%Z. assert (Z.abs m * Z.abs m' <= 16777216 * 16777216)%Z by (apply Z.mul_le_mono_nonneg; lia). lia.
Qed.
Lemma eval_lit (F : format) env (v : float F) : val (eval (fnum F) env (lit (fnum F) v)) = val v.
Proof.
  unfold lit. destruct (nlt _ _ _); [|reflexivity]. cbn [eval]. unfold nopp. cbn [nsub n0 fnum val proj1_sig fl]. fold (val v). rewrite !(rnd_0 F), !Rminus_0_l, !rnd_opp.
  destruct v as (v & Hv). unfold val. cbn [proj1_sig]. rewrite !Ropp_involutive, ?rnd_opp, ?Hv, ?Ropp_involutive. reflexivity.
Qed.
Lemma rnd_program t x : rnd (program_format t) x = to_type t x.
Proof. destruct t; reflexivity. Qed.
Lemma val_program t x : val (fl (program_format t) x) = to_type t x.
Proof. destruct t; reflexivity. Qed.
Lemma typed_idem t x : to_type t (to_type t x) = to_type t x.
Proof. destruct t; [apply (@nearest_idem 24 (-149) eq_refl)|apply (@nearest_idem 53 (-1074) eq_refl)]. Qed.
Lemma typed_mono t x y : x <= y -> to_type t x <= to_type t y.
Proof. destruct t; [apply (@nearest_mono 24 (-149) eq_refl)|apply (@nearest_mono 53 (-1074) eq_refl)]. Qed.

(** Such programs are those of C78, for a format of the precision of the data type:
    a float program for ReLu, Linear, Exponential, Logarithm, Clip, and LeakyReLu of
    which alpha is a float (as read from an ONNX file); a double program for all but
    Sigmoid and TanH. *)
Theorem C86_covered : forall t (z : float (program_format t)) a, accepted Rnum a -> python_floats a ->
  match t, a with
  | _, Sigmoid | _, TanH | CFloat, Silu => False
  | CFloat, LeakyReLu alpha => to_binary32 alpha = alpha
  | _, _ => True
  end ->
  exists v, c_value (fnum (program_format t)) (write_activation_str (fnum (program_format t)) (in_format (program_format t) a) [TId 0]) (fun _ => z) = Some v /\
    activated t a (val z) = Some (val v).
Proof.
  intros t z a AC PF OK. set (F := program_format t) in *. assert (VF : forall x, val (fl F x) = to_type t x) by apply val_program.
  assert (Hz : to_type t (val z) = val z) by (rewrite <- rnd_program; exact (proj2_sig z)). pose proof (r64_typed t _ Hz) as Z.
  pose proof (to_0 CDouble) as R0. pose proof (to_1 CDouble) as R1. cbn [to_type] in R0, R1. pose proof (to_0 t) as T0. pose proof (to_1 t) as T1.
  unfold activated, assigned, c_value. destruct a; cbn [accepted python_floats in_format] in *; try (destruct t; contradiction).
  - (* Silu *) destruct t; [contradiction|]. rewrite !parse_silu. eexists. split; [reflexivity|]. f_equal. cbn [typed_eval eval n1 Rnum]. rewrite ?op_l, ?op_r. cbn [snd to_type].
    cbn [ndiv nadd nexp call fnum n1]. unfold nopp. cbn [nsub n0 fnum]. rewrite !VF. cbn [to_type] in *. rewrite R0, R1, r64_opp, Z. rewrite ?(typed_idem CDouble : forall x, r64 (r64 x) = r64 x). reflexivity.
  - (* ReLu *) rewrite !parse_relu. eexists. split; [reflexivity|]. f_equal. cbn [typed_eval eval n0 Rnum fnum nlt]. unfold is_true. rewrite R0. cbn [snd]. rewrite cond_true, VF, T0.
    destruct (Rltb 0 (val z)); [exact Hz|]. rewrite VF. reflexivity.
  - (* LeakyReLu *) assert (AF : to_type t alpha = alpha) by (destruct t; [exact OK|exact PF]).
    assert (NF : nlt (fnum F) (fl F alpha) (n0 (fnum F)) = false) by (cbn [nlt n0 fnum]; rewrite !VF, T0, AF; exact AC).
    rewrite (parse_leaky Rnum alpha AC), (parse_leaky (fnum F) (fl F alpha) NF). eexists. split; [reflexivity|]. f_equal. cbn [typed_eval eval n0 Rnum fnum nlt nmul]. unfold is_true. rewrite R0, PF, !op_l. cbn [snd]. rewrite cond_true, VF, T0.
    destruct (Rltb 0 (val z)); [exact Hz|]. rewrite !VF, AF. destruct t; cbn [to_type] in *; [rewrite float_product by assumption|rewrite (typed_idem CDouble : forall x, r64 (r64 x) = r64 x)]; reflexivity.
  - (* Linear *) rewrite !parse_linear. eexists. split; [reflexivity|]. f_equal. exact Hz.
  - (* Exponential *) rewrite !parse_exp. eexists. split; [reflexivity|]. f_equal. cbn [typed_eval snd eval call nexp fnum]. rewrite VF. destruct t; [reflexivity|exact (typed_idem CDouble _)].
  - (* Logarithm *) rewrite !parse_log. eexists. split; [reflexivity|]. f_equal. cbn [typed_eval snd eval call nlog fnum]. rewrite VF. destruct t; [reflexivity|exact (typed_idem CDouble _)].
  - (* Clip *) destruct PF as (P1 & P2). rewrite !parse_clip. eexists. split; [reflexivity|]. f_equal. cbn [typed_eval eval]. unfold is_true. rewrite !typed_lit by assumption. cbn [snd]. rewrite !cond_true.
    change (nlt (fnum F)) with (fun a b : float F => Rltb (val a) (val b)). cbv beta. rewrite !eval_lit, !VF.
    assert (GT : forall c, Rltb (to_type t c) (val z) = true -> Rltb c (val z) = true).
    { intros c. unfold Rltb. destruct (Rlt_dec _ _) as [L|L]; [intros _|discriminate]. destruct (Rlt_dec c (val z)) as [L'|L']; [reflexivity|exfalso]. assert (Rle' : val z <= c) by lra. apply (typed_mono t) in Rle'. rewrite Hz in Rle'. lra. }
    assert (LT : forall c, Rltb (val z) (to_type t c) = true -> Rltb (val z) c = true).
    { intros c. unfold Rltb. destruct (Rlt_dec _ _) as [L|L]; [intros _|discriminate]. destruct (Rlt_dec (val z) c) as [L'|L']; [reflexivity|exfalso]. assert (Rle' : c <= val z) by lra. apply (typed_mono t) in Rle'. rewrite Hz in Rle'. lra. }
    assert (ML : min <= max) by (change (Rltb max min = false) in AC; unfold Rltb in AC; destruct (Rlt_dec max min); [discriminate|lra]). apply (typed_mono t) in ML.
    assert (EQ1 : Rltb max (val z) = true -> Rltb (to_type t max) (val z) = false -> to_type t max = val z).
    { unfold Rltb. destruct (Rlt_dec max (val z)) as [L|L]; [intros _|discriminate]. destruct (Rlt_dec _ (val z)) as [L'|L']; [discriminate|intros _]. assert (LL : max <= val z) by lra. apply (typed_mono t) in LL. rewrite Hz in LL. lra. }
    assert (EQ2 : Rltb (val z) min = true -> Rltb (val z) (to_type t min) = false -> to_type t min = val z).
    { unfold Rltb. destruct (Rlt_dec (val z) min) as [L|L]; [intros _|discriminate]. destruct (Rlt_dec (val z) _) as [L'|L']; [discriminate|intros _]. assert (LL : val z <= min) by lra. apply (typed_mono t) in LL. rewrite Hz in LL. lra. }
    destruct (Rltb (to_type t max) (val z)) eqn:C1.
    + rewrite (GT _ C1). rewrite eval_lit, VF. reflexivity.
    + destruct (Rltb max (val z)) eqn:C2.
      * specialize (EQ1 eq_refl eq_refl). destruct (Rltb (val z) (to_type t min)) eqn:C3; [exfalso; unfold Rltb in C3; destruct (Rlt_dec _ _); [lra|discriminate]|exact EQ1].
      * destruct (Rltb (val z) (to_type t min)) eqn:C3; [rewrite (LT _ C3), eval_lit, VF; reflexivity|]. destruct (Rltb (val z) min) eqn:C4; [apply EQ2; reflexivity|exact Hz].
Qed.
Print Assumptions C86_covered.

(** ** Concrete cases. *)
Lemma r32_half_power (e : Z) : (-149 <= e)%Z -> r32 (bpow radix2 e) = bpow radix2 e.
Proof. intros H. apply round_generic; [typeclasses eauto|]. apply generic_format_bpow. unfold FLT_exp. lia. Qed.
(** A quarter is a float and a double; a float program computes the leaky ReLu of -2 in float. *)
Example C86_leaky : activated CFloat (@LeakyReLu Rnum (/ 4)) (-2) = Some (- / 2).
Proof.
  assert (Q : r32 (/ 4) = / 4) by (change (/ 4) with (bpow radix2 (-2)); apply r32_half_power; lia). assert (H : r32 (/ 2) = / 2) by (change (/ 2) with (bpow radix2 (-1)); apply r32_half_power; lia).
  assert (T : r32 2 = 2) by (change 2 with (bpow radix2 1); apply r32_half_power; lia).
  assert (Q64 : r64 (/ 4) = / 4) by (rewrite <- Q at 1; rewrite r64_r32; exact Q). assert (H64 : r64 (- / 2) = - / 2) by (replace (- / 2) with (0 - / 2) by ring; rewrite r64_opp, <- H, r64_r32; ring).
  assert (AC : nlt Rnum (/ 4) (n0 Rnum) = false) by (cbn [nlt n0 Rnum]; unfold Rltb; destruct (Rlt_dec (/ 4) 0); [lra|reflexivity]).
  unfold activated, assigned. rewrite (parse_leaky Rnum (/ 4) AC). f_equal. cbn [typed_eval n0 Rnum]. unfold is_true. rewrite !op_l, Q64. cbn [snd to_type]. rewrite cond_true.
  pose proof (to_0 CDouble) as R0. cbn [to_type] in R0. rewrite R0. unfold Rltb. destruct (Rlt_dec 0 (-2)); [lra|]. replace (/ 4 * -2) with (- / 2) by lra. rewrite H64.
  replace (- / 2) with (- (/ 2)) by ring. rewrite <- H at 2. apply round_NE_opp.
Qed.
Example C86_softmax_two : Forall2 (fun z y => Rabs (y - exp z / (exp 1 + (exp 2 + 0))) <= INR 3 / 2 ^ 22 * (exp z / (exp 1 + (exp 2 + 0))) + / 2 ^ 148) [1; 2] (typed_softmax CFloat [1; 2]).
Proof. apply (C86_softmax CFloat [1; 2]); [cbn; lra|]. intros z [<-|[<-|[]]]; lra. Qed.
Example C86_batchnorm_one : Rabs (typed_batchnorm CFloat 3 1 2 5 0 7 - (3 * (7 - 1) / sqrt (2 + 0) + 5)) <= / 2 ^ 22 * (Rabs (3 * (7 - 1) / sqrt (2 + 0)) + Rabs 5) + / 2 ^ 100.
Proof. apply C86_batchnorm; [exact (to_0 CDouble)|lra|rewrite Rabs_pos_eq; lra]. Qed.
Example C78_sigmoid_float : exists v, activated CFloat Sigmoid 1 = Some v /\ Rabs (v - 1 / (1 + exp (- (1)))) <= / 2 ^ 20.
Proof. apply C78_sigmoid. exact (to_1 CFloat). Qed.
