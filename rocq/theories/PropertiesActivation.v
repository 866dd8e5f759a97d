(** * Property C32: emitted activation expressions equal the Python activations.
    [c_value ts env] parses the emitted text as a C expression and evaluates it
    (Activation.v). *)
From Coq Require Import ZArith List Lia Bool Reals Lra.
Import ListNotations.
Open Scope Z_scope.
From Verif Require Import CMem Tensor Num NumInst RealInst Activation PropertiesMovement.

Ltac split_if := repeat match goal with
  | |- context [if ?b then _ else _] => destruct b eqn:?
  end.

Lemma str_cases (N : num) (v : T N) : ring_laws N ->
  (str N v = [TMinus N; TLit (nopp N v)] /\ nopp N (nopp N v) = v) \/ str N v = [TLit v].
Proof.
  intros L. unfold str. destruct (nlt N v (n0 N)); [left|right; reflexivity]. split; [reflexivity|].
  pose proof (opp_def N L v) as A. pose proof (opp_def N L (nopp N v)) as B.
  rewrite (add_comm N L) in A.
  assert (C : nadd N (nadd N v (nopp N v)) (nopp N (nopp N v)) = nadd N v (n0 N)).
  { rewrite <- (add_assoc N L). f_equal. exact B. }
  rewrite (add_comm N L v (nopp N v)), A, (add_0_l N L), (add_0_r N L) in C. exact C.
Qed.

(** Which functions only agree up to the laws of real arithmetic. *)
Definition exact_in_floats {N} (a : activation N) : Prop :=
  match a with LeakyReLu _ | Clip _ _ => False | _ => True end.

(** local_var is a single lvalue of value [v] (every layer but average pooling):
    the emitted text is a well-formed C expression whose value is the value the
    Python activation computes. *)
Theorem C32_activation_exact : forall (N : num) (a : activation N) (v : T N),
  exact_in_floats a -> c_value N (write_activation_str N a [TId 0]) (fun _ => v) = Some (compute N a v).
Proof. intros N a v H. destruct a; try contradiction; reflexivity. Qed.
Print Assumptions C32_activation_exact.

Theorem C32_activation : forall (N : num) (a : activation N) (v : T N),
  ring_laws N -> order_laws N -> accepted N a ->
  c_value N (write_activation_str N a [TId 0]) (fun _ => v) = Some (compute N a v).
Proof.
  intros N a v L O A. destruct a; try reflexivity.
  - (* LeakyReLu *)
    assert (E : (if nlt N (n0 N) v then v else nmul N alpha v) = (if nlt N v (n0 N) then nmul N alpha v else v)).
    { destruct (nlt N (n0 N) v) eqn:H1, (nlt N v (n0 N)) eqn:H2; try reflexivity.
      - pose proof (lt_trans N O _ _ _ H1 H2) as H. rewrite (lt_irrefl N O) in H. discriminate.
      - rewrite <- (lt_total N O _ _ H1 H2). apply (mul_0_r N L). }
    unfold c_value, write_activation_str, compute.
    destruct (str_cases N alpha L) as [(-> & HE)| ->]; cbn - [nopp]; rewrite ?HE; f_equal; exact E.
  - (* Clip *)
    cbn in A. 
    assert (E : (if nlt N max v then max else if nlt N v min then min else v) = np_minimum N (np_maximum N v min) max).
    { unfold np_minimum, np_maximum. destruct (nlt N max v) eqn:H1, (nlt N v min) eqn:H2.
      - rewrite (lt_trans N O _ _ _ H1 H2) in A. discriminate.
      - rewrite H1. reflexivity.
      - rewrite A. reflexivity.
      - rewrite H1. reflexivity. }
    cbn [compute]. rewrite <- E.
    unfold c_value, write_activation_str.
    destruct (str_cases N max L) as [(-> & HE)| ->]; destruct (str_cases N min L) as [(-> & HE')| ->];
      cbn - [nopp]; rewrite ?HE, ?HE'; reflexivity.
Qed.
Print Assumptions C32_activation.

(** Average pooling passes the compound text sum/count without parentheses
    (pooling/average_pooling/AveragePooling2D.py); the result is still the
    activation of the quotient. *)
Theorem C32_activation_compound : forall (N : num) (a : activation N) (s c : T N),
  field_laws N -> order_laws N -> accepted N a ->
  c_value N (write_activation_str N a [TId 0; TSlash; TId 1]) (fun k => match k with O => s | _ => c end)
  = Some (compute N a (ndiv N s c)).
Proof.
  intros N a s c F O A. pose proof (fl_ring N F) as L.
  assert (D0 : ndiv N (n0 N) c = n0 N).
  { rewrite <- (mul_0_l N L (n0 N)) at 1. rewrite (div_mul N F). apply (mul_0_l N L). }
  assert (DO : ndiv N (nopp N s) c = nopp N (ndiv N s c)).
  { assert (H : nadd N (ndiv N (nopp N s) c) (ndiv N s c) = n0 N).
    { rewrite <- (div_add N F). unfold nopp at 1. rewrite (sub_add N L). exact D0. }
    rewrite <- (add_sub N L (ndiv N (nopp N s) c) (ndiv N s c)), H. reflexivity. }
  destruct a; cbn - [nopp]; rewrite ?DO, ?(div_mul N F); try reflexivity.
  - pose proof (C32_activation N (LeakyReLu alpha) (ndiv N s c) L O A) as H.
    unfold c_value, write_activation_str, compute in *.
    destruct (str_cases N alpha L) as [(E & _)|E]; rewrite E in *; cbn - [nopp] in *; rewrite ?(div_mul N F); exact H.
  - pose proof (C32_activation N (Clip max min) (ndiv N s c) L O A) as H.
    unfold c_value, write_activation_str, compute in *.
    destruct (str_cases N max L) as [(E & _)|E]; rewrite E in *; destruct (str_cases N min L) as [(E' & _)|E']; rewrite E' in *;
      cbn - [nopp] in *; exact H.
Qed.
Print Assumptions C32_activation_compound.

(** ** The activation layer, possibly in place (src = out). *)
Theorem C32_activation_layer : forall (N : num) (a : activation N) src out size x,
  0 <= size -> zlen x = size -> (forall v, c_value N (write_activation_str N a [TId 0]) (fun _ => v) = Some (compute N a v)) ->
  layer_ok (activation_c N src out size a) [(src, x)] out 0 size (activation_py N a x).
Proof.
  intros N a src out size x Hs Hx HA m Hm Ht Ho. apply holds_src1 in Hm.
  set (F := compute N a) in *.
  destruct (fill_holds size (fun k m => v <- rd m src k ;;
      r <- c_value N (write_activation_str N a [TId 0]) (fun _ => v) ;; wr m out k r)
      (fun k => F (nthZ (n0 N) x k)) out m) as (m' & E & O & H); [lia|lia| |].
  - intros k m1 Hk O P1 P2.
    assert (R : rd m1 src k = Some (nthZ (n0 N) x k)).
    { transitivity (rd m src k); [|apply holds_rd_nthZ; [exact Hm|lia]].
      destruct (bname_eq_dec src out) as [->|Hne]; [apply P2; lia|].
      destruct O as [_ O]. unfold rd. rewrite O by exact Hne. reflexivity. }
    rewrite R. cbn [bind]. rewrite HA. reflexivity.
  - exists m'. split; [exact E|]. split; [|split].
    + unfold activation_py. fold F. rewrite (tab_nthZ (n0 N) x), map_tab, Hx. exact H.
    + intros b. apply (only_zlen m m' out b O).
    + intros b _ Hb. apply O. exact Hb.
Qed.
Print Assumptions C32_activation_layer.

(** ** What the functions are, over the reals. *)
Lemma Rnum_order : order_laws Rnum.
Proof.
  constructor; cbn [nlt Rnum]; unfold Rltb; intros *; repeat destruct (Rlt_dec _ _); try discriminate; try reflexivity; try lra.
Qed.

Section Reals.
  Local Open Scope R_scope.
  Lemma exp_neg_quot x : exp x / (1 + exp x) = 1 / (1 + exp (- x)).
  Proof.
    rewrite exp_Ropp. pose proof (exp_pos x). field. split; lra.
  Qed.

  (** The value the activation should have. *)
  Definition intended (a : activation Rnum) (x : R) : R :=
    match a with
    | Sigmoid => 1 / (1 + exp (- x))
    | Silu => x * (1 / (1 + exp (- x)))
    | ReLu => Rmax 0 x
    | LeakyReLu alpha => if Rlt_dec x 0 then alpha * x else x
    | TanH => tanh x
    | LinearAct => x
    | Exponential => exp x
    | Logarithm => ln x
    | Clip mx mn => Rmin mx (Rmax mn x)
    end.

  Lemma tanh_exp x : tanh x = (exp (2 * x) - 1) / (exp (2 * x) + 1).
  Proof.
    unfold tanh, sinh, cosh. replace (2 * x) with (x + x) by ring. rewrite exp_plus, exp_Ropp.
    pose proof (exp_pos x). pose proof (Rmult_lt_0_compat _ _ H H).
    assert (exp x * exp x + 1 <> 0) by lra.
    assert (exp x + / exp x <> 0).
    { pose proof (Rinv_0_lt_compat _ H). lra. }
    field. repeat split; try lra.
  Qed.

  Lemma tanh_exp_neg x : tanh x = (1 - exp (- (2) * x)) / (1 + exp (- (2) * x)).
  Proof.
    rewrite tanh_exp. replace (- (2) * x) with (- (2 * x)) by ring. rewrite exp_Ropp.
    pose proof (exp_pos (2 * x)). field. lra.
  Qed.
End Reals.

Theorem C32_activation_real : forall (a : activation Rnum) (x : R), accepted Rnum a ->
  c_value Rnum (write_activation_str Rnum a [TId 0]) (fun _ => x) = Some (intended a x).
Proof.
  intros a x A. rewrite (C32_activation Rnum a x (fl_ring _ Rnum_field) Rnum_order A). f_equal.
  destruct a; cbn [compute intended nexp nlog nadd nmul ndiv nsub n0 n1 nlt nofZ Rnum]; try reflexivity.
  - unfold nopp, Rltb. cbn [nsub n0 Rnum]. rewrite Rminus_0_l. destruct (Rlt_dec x 0); [apply exp_neg_quot|reflexivity].
  - unfold nopp. cbn [nsub n0 Rnum]. rewrite Rminus_0_l. change (x / (1 + exp (- x)) = x * (1 / (1 + exp (- x))))%R. unfold Rdiv. ring.
  - unfold np_maximum. cbn [nlt Rnum]. unfold Rltb, Rmax. destruct (Rlt_dec 0 x), (Rle_dec 0 x); lra.
  - unfold Rltb. destruct (Rlt_dec x 0); reflexivity.
  - unfold Rltb, nopp. cbn [nsub n0 Rnum]. rewrite Rminus_0_l. destruct (Rlt_dec x 0).
    + symmetry. apply tanh_exp. 
    + symmetry. apply tanh_exp_neg.
  - cbn in A. unfold Rltb in A. unfold np_minimum, np_maximum. cbn [nlt Rnum]. unfold Rltb, Rmin, Rmax.
    repeat destruct (Rlt_dec _ _); repeat destruct (Rle_dec _ _); try discriminate; lra.
Qed.
Print Assumptions C32_activation_real.

(** Non-vacuity: a clip between -3 and 5, a leaky rectifier, on integers; the
    layer runs in place. *)
Lemma Znum_order : order_laws Znum.
Proof.
  constructor; cbn [nlt Znum]; intros *.
  - apply Z.ltb_irrefl.
  - rewrite !Z.ltb_lt. lia.
  - rewrite !Z.ltb_ge. intros. cbn in *. lia.
Qed.
Example C32_example :
  accepted Znum (Clip (5 : T Znum) (-3 : T Znum)) /\
  result_of (activation_c Znum (Out 0) (Out 0) 4 (Clip (5 : T Znum) (-3 : T Znum)) (mem_of [(Out 0, [-7; -3; 2; 9])])) (Out 0) 4 = Some [-3; -3; 2; 5] /\
  result_of (activation_c Znum (Out 0) (Out 1) 3 (LeakyReLu (2 : T Znum)) (mem_of [(Out 0, [-7; 0; 9]); (Out 1, [1; 1; 1])])) (Out 1) 3 = Some [-14; 0; 9].
Proof. repeat split. Qed.
