(** * Resize layers with the rounding of their coordinates (C81).
    Resize.v computes the positions with exact rationals.  Here they are
    computed as the code does: the generated C code in double precision,
    stored in a float; Python in double precision. *)
From Coq Require Import ZArith List Lia Bool Reals Lra QArith Qreals Qround.
From Flocq Require Import Core Relative.
Import ListNotations.
From Verif Require Import CMem Tensor Num Rounding FloatFormats Resize.
Open Scope R_scope.

(** double and float: nearest even, no overflow (FloatFormats.v). *)
Definition double (x : R) : R := FloatFormats.nearest 53 (-1074) x.
Definition float (x : R) : R := FloatFormats.nearest 24 (-149) x.

(** Resize.py:116-119 with sizes: self.output_height / self.input_height, a
    division of Python integers. *)
Definition scale_of (isize osize : Z) : R := double (IZR osize / IZR isize).

(** The value assigned to x or y: template_source_file.c.tpl, "float x; float y;",
    and the text of Resize.py:221-228 (half_pixel), 277-291 (pytorch_half_pixel),
    312-329 (align_corners: integers, then converted), 342-348 (asymmetric).
    0.5 and the scale are double constants. *)
Definition position_c (md : cmode) (s : R) (isize osize i : Z) : option R :=
  match md with
  | HalfPixel => Some (float (double (double (double (IZR i + / 2) / s) - / 2)))
  | PytorchHalfPixel => if (1 <? osize)%Z then Some (float (double (double (double (IZR i + / 2) / s) - / 2))) else Some 0
  | AlignCorners => if (osize - 1 =? 0)%Z then None else Some (float (IZR (Z.quot (i * (isize - 1)) (osize - 1))))
  | Asymmetric => Some (float (double (IZR i / s)))
  end.
(** Resize.py:230-236, 293-308, 331-340, 350-356: Python floats are doubles; the quotient
    of two integers is rounded once. *)
Definition position_py (md : cmode) (s : R) (isize osize i : Z) : option R :=
  match md with
  | HalfPixel => Some (double (double (double (IZR i + / 2) / s) - / 2))
  | PytorchHalfPixel => if (1 <? osize)%Z then Some (double (double (double (IZR i + / 2) / s) - / 2)) else Some 0
  | AlignCorners => if (osize - 1 =? 0)%Z then None else Some (double (IZR (i * (isize - 1)) / IZR (osize - 1)))
  | Asymmetric => Some (double (IZR i / s))
  end.
(** ResizeNearestDefault.py:44-58 and ResizeNearest.py:40-72: floor and ceil of C's
    library take and return doubles, 2*x is computed in the type of x ([rnd]). *)
Definition pixel (rnd : R -> R) (nm : nmode) (x : R) : Z :=
  match nm with
  | NFloor => Zfloor x
  | NCeil => Zceil x
  | RoundPreferFloor => Zfloor (double (IZR (Zceil (rnd (2 * x))) / 2))
  | RoundPreferCeil => Zceil (double (IZR (Zfloor (rnd (2 * x))) / 2))
  end.
Definition pixel_c (nm : nmode) (md : cmode) (s : R) (isize osize i : Z) : option Z :=
  x <- position_c md s isize osize i ;; Some (pixel float nm x).
Definition pixel_py (nm : nmode) (md : cmode) (s : R) (isize osize i : Z) : option Z :=
  x <- position_py md s isize osize i ;; Some (pixel double nm x).

(** The layer, as nearest_c and nearest_py of Resize.v
    (template_ResizeNearest.c.tpl, ResizeNearest.py:75-92), for a layer whose
    scales are quotients of sizes. *)
Section Layer.
  Context (N : num).
  Notation V := (T N).
  Definition float_nearest_c (nm : nmode) (src out : bname) (p : rparams) (act : V -> V) : mem V -> option (mem V) :=
    via_temp
      (for_ (rC p) (fun f => for_ (rOH p) (fun i => for_ (rOW p) (fun j m =>
        x0 <- pixel_c nm (rmode p) (scale_of (rH p) (rOH p)) (rH p) (rOH p) i ;;
        y0 <- pixel_c nm (rmode p) (scale_of (rW p) (rOW p)) (rW p) (rOW p) j ;;
        v <- rd m src (y0 + rW p * (x0 + rH p * f)) ;;
        wr m Temp (j + rOW p * (i + rOH p * f)) (act v)))))
      (rC p * rOH p * rOW p) (fun v => v) out.
  Definition float_nearest_py (nm : nmode) (p : rparams) (x : list V) : option (list V) :=
    sequence (tab3 (rC p) (rOH p) (rOW p) (fun f i j =>
      x0' <- pixel_py nm (rmode p) (scale_of (rH p) (rOH p)) (rH p) (rOH p) i ;;
      y0' <- pixel_py nm (rmode p) (scale_of (rW p) (rOW p)) (rW p) (rOW p) j ;;
      x0 <- py_index (rH p) x0' ;; y0 <- py_index (rW p) y0' ;;
      rdl x (idx3 (rH p) (rW p) f x0 y0))).
End Layer.

(** ** Arithmetic. *)
Lemma IZR_floor z : Zfloor (IZR z) = z.
Proof. apply Zfloor_imp. rewrite plus_IZR. lra. Qed.
(** Close to a fraction, and equal to it when it is an integer: same floor and ceiling. *)
Lemma floor_stable (n q : Z) (x : R) : (0 < q)%Z -> Rabs (x - IZR n / IZR q) < / IZR q -> ((q | n)%Z -> x = IZR n / IZR q) ->
  Zfloor x = (n / q)%Z /\ Zceil x = (- ((- n) / q))%Z.
Proof.
  intros Hq HA HI. assert (Q : 0 < IZR q) by (apply IZR_lt; lia).
  pose proof (Z.div_mod n q ltac:(lia)) as DM. pose proof (Z.mod_pos_bound n q Hq) as MB.
  set (m := (n / q)%Z) in *. set (k := (n mod q)%Z) in *.
  assert (E : IZR n / IZR q = IZR m + IZR k / IZR q) by (rewrite DM, plus_IZR, mult_IZR; field; lra).
  destruct (Z.eq_dec k 0) as [K0|K0].
  - assert (D : (q | n)%Z) by (exists m; lia). rewrite (HI D), E, K0. replace (IZR m + 0 / IZR q) with (IZR m) by (field; lra).
    split; [apply IZR_floor|]. unfold Zceil. rewrite <- opp_IZR, IZR_floor. f_equal. replace (- n)%Z with ((- m) * q)%Z by lia. rewrite Z.div_mul by lia. reflexivity.
  - assert (K1 : 1 * / IZR q <= IZR k / IZR q) by (unfold Rdiv; apply Rmult_le_compat_r; [left; apply Rinv_0_lt_compat; exact Q|apply IZR_le; lia]).
    assert (K2 : IZR k / IZR q <= 1 - / IZR q).
    { replace (1 - / IZR q) with (IZR (q - 1) / IZR q) by (rewrite minus_IZR; field; lra). unfold Rdiv. apply Rmult_le_compat_r; [left; apply Rinv_0_lt_compat; exact Q|apply IZR_le; lia]. }
    rewrite E in HA. apply Rabs_def2 in HA. split.
    + apply Zfloor_imp. rewrite plus_IZR. lra.
    + replace ((- n) / q)%Z with (- (m + 1))%Z.
      * rewrite Z.opp_involutive. apply Zceil_imp. rewrite minus_IZR, plus_IZR. lra.
      * apply (Z.div_unique (- n) q (- (m + 1)) (q - k)); lia.
Qed.

Lemma format_twice prec emin x : (0 < prec)%Z -> generic_format radix2 (FLT_exp emin prec) x -> generic_format radix2 (FLT_exp emin prec) (2 * x).
Proof.
  intros Hp H. apply FLT_format_generic in H; [|exact Hp]. destruct H as [f E M X].
  apply generic_format_FLT. apply FLT_spec with (Float radix2 (Fnum f) (Fexp f + 1)); cbn [Fnum Fexp]; [|exact M|lia].
  rewrite E. unfold F2R. cbn [Fnum Fexp]. rewrite bpow_plus. change (bpow radix2 1) with 2. ring.
Qed.
(** Half-integers of at most [prec] bits are in the format. *)
Lemma format_half prec emin h : (0 < prec)%Z -> (emin <= -1)%Z -> (Z.abs h < 2 ^ prec)%Z -> generic_format radix2 (FLT_exp emin prec) (IZR h / 2).
Proof.
  intros Hp He Hh. apply generic_format_FLT. apply FLT_spec with (Float radix2 h (-1)); cbn [Fnum Fexp]; [|exact Hh|exact He].
  unfold F2R. cbn [Fnum Fexp]. change (bpow radix2 (-1)) with (/ 2). reflexivity.
Qed.
Lemma nearest_fix prec emin x : (0 < prec)%Z -> generic_format radix2 (FLT_exp emin prec) x -> FloatFormats.nearest prec emin x = x.
Proof. intros Hp H. unfold FloatFormats.nearest. apply round_generic; [apply valid_rnd_N|exact H]. Qed.
Lemma double_half h : (Z.abs h < 2 ^ 53)%Z -> double (IZR h / 2) = IZR h / 2.
Proof. intros. apply nearest_fix; [lia|]. apply format_half; [lia|lia|assumption]. Qed.
Lemma float_half h : (Z.abs h < 2 ^ 24)%Z -> float (IZR h / 2) = IZR h / 2.
Proof. intros. apply nearest_fix; [lia|]. apply format_half; [lia|lia|assumption]. Qed.
Lemma double_int h : (Z.abs h < 2 ^ 52)%Z -> double (IZR h) = IZR h.
Proof. intros. replace (IZR h) with (IZR (2 * h) / 2) by (rewrite mult_IZR; field). apply double_half. rewrite Z.abs_mul. change (2 ^ 53)%Z with (2 * 2 ^ 52)%Z. change (Z.abs 2) with 2%Z. set (q := (2 ^ 52)%Z) in *. lia. Qed.
Lemma float_int h : (Z.abs h < 2 ^ 23)%Z -> float (IZR h) = IZR h.
Proof. intros. replace (IZR h) with (IZR (2 * h) / 2) by (rewrite mult_IZR; field). apply float_half. rewrite Z.abs_mul. change (2 ^ 24)%Z with (2 * 2 ^ 23)%Z. change (Z.abs 2) with 2%Z. set (q := (2 ^ 23)%Z) in *. lia. Qed.
Lemma float_twice x : float x = x -> float (2 * x) = 2 * x.
Proof. intros E. apply nearest_fix; [lia|]. apply format_twice; [lia|]. rewrite <- E. apply (nearest_format 24 (-149) eq_refl). Qed.
Lemma double_twice x : double x = x -> double (2 * x) = 2 * x.
Proof. intros E. apply nearest_fix; [lia|]. apply format_twice; [lia|]. rewrite <- E. apply (nearest_format 53 (-1074) eq_refl). Qed.

(** ** Errors. *)
Definition u53 : R := / 9007199254740992.
Lemma u53_bpow : u53 = bpow radix2 (-53). Proof. reflexivity. Qed.
Lemma double_rel x : / 1048576 / 1048576 <= x -> Rabs (double x - x) <= u53 * x.
Proof.
  intros Hx. assert (P : 0 < x) by lra. rewrite <- (Rabs_pos_eq x) at 3 by lra.
  pose proof (relative_error_N_FLT radix2 (-1074) 53 eq_refl (fun x => negb (Z.even x)) x) as E. unfold double, FloatFormats.nearest.
  eapply Rle_trans; [apply E|].
  - rewrite (Rabs_pos_eq x) by lra. apply Rle_trans with (bpow radix2 (-40)); [apply bpow_le; lia|]. change (bpow radix2 (-40)) with (/ 1099511627776). lra.
  - apply Rmult_le_compat_r; [apply Rabs_pos|]. rewrite u53_bpow. apply Req_le. exact (unit_half 53).
Qed.
Lemma double_abs x : Rabs (double x - x) <= u53 * Rabs x + u53 * u53.
Proof.
  eapply Rle_trans; [apply (nearest_err 53 (-1074) eq_refl)|]. rewrite unit_half, least_half.
  apply Rplus_le_compat; [right; reflexivity|]. rewrite u53_bpow, <- bpow_plus. apply bpow_le. lia.
Qed.
Lemma float_abs x : Rabs (float x - x) <= / 16777216 * Rabs x + u53 * u53.
Proof.
  eapply Rle_trans; [apply (nearest_err 24 (-149) eq_refl)|]. rewrite unit_half, least_half.
  apply Rplus_le_compat; [right; reflexivity|]. rewrite u53_bpow, <- bpow_plus. apply bpow_le. lia.
Qed.
(** The quotient of c by the rounded scale. *)
Lemma quotient_err (a b c : R) : 1 <= a -> 1 <= b -> a * b <= 4194304 -> / 2 <= c -> c <= b ->
  Rabs (double (c / double (b / a)) - c * a / b) <= 3 * u53 * (c * a / b).
Proof.
  intros Ha Hb Hab Hc Hcb.
  assert (B1 : b <= 4194304) by nra. assert (A1 : a <= 4194304) by nra.
  assert (S : / 4194304 <= b / a).
  { apply Rmult_le_reg_r with a; [lra|]. unfold Rdiv. rewrite Rmult_assoc, Rinv_l by lra. nra. }
  pose proof (double_rel (b / a) ltac:(lra)) as E1. set (s := double (b / a)) in *. set (r := b / a) in *.
  apply Rabs_le_inv in E1. unfold u53 in *.
  assert (Sp : 0 < s) by nra.
  set (t := c * a / b). assert (Et : t = c / r) by (unfold t, r; field; split; lra).
  assert (Tp : 0 < t) by (rewrite Et; apply Rdiv_lt_0_compat; lra).
  assert (Ec : c = t * r) by (rewrite Et; field; lra).
  set (w := c / s). assert (Ew : w * s = t * r) by (unfold w; rewrite <- Ec; field; lra).
  assert (W1 : w - t <= / 7000000000000000 * t) by (apply Rmult_le_reg_r with s; [exact Sp|]; nra).
  assert (W2 : - (/ 7000000000000000 * t) <= w - t) by (apply Rmult_le_reg_r with s; [exact Sp|]; nra).
  assert (T1 : / 16777216 <= t).
  { unfold t. apply Rmult_le_reg_r with b; [lra|]. unfold Rdiv. rewrite Rmult_assoc, Rinv_l by lra. nra. }
  pose proof (double_rel w ltac:(lra)) as E2. apply Rabs_le_inv in E2. unfold u53 in E2. apply Rabs_le. lra.
Qed.

Lemma double_0 : double 0 = 0. Proof. exact (nearest_0 53 (-1074)). Qed.
Lemma float_0 : float 0 = 0. Proof. exact (nearest_0 24 (-149)). Qed.

(** d approximates n/(2b), an input coordinate below a, and better when it is a half-integer. *)
Definition close (a b n : Z) (d : R) : Prop :=
  Rabs (d - IZR n / IZR (2 * b)) <= 16 * u53 * IZR a /\ Rabs (IZR n / IZR (2 * b)) <= IZR a /\
  ((b | n)%Z -> 0 <= IZR n / IZR (2 * b) /\ Rabs (d - IZR n / IZR (2 * b)) <= 12 * u53 * (IZR n / IZR (2 * b))).

Lemma close_asymmetric a b i : (1 <= a)%Z -> (1 <= b)%Z -> (a * b <= 4194304)%Z -> (0 <= i < b)%Z ->
  close a b (2 * i * a) (double (IZR i / scale_of a b)).
Proof.
  intros Ha Hb Hab Hi. assert (A : 1 <= IZR a) by (apply IZR_le; lia). assert (B : 1 <= IZR b) by (apply IZR_le; lia).
  assert (AB : IZR a * IZR b <= 4194304) by (rewrite <- mult_IZR; apply IZR_le; lia).
  assert (E : IZR (2 * i * a) / IZR (2 * b) = IZR i * IZR a / IZR b) by (rewrite !mult_IZR; field; lra).
  unfold close. rewrite E. destruct (Z.eq_dec i 0) as [->|N].
  - unfold Rdiv. rewrite !Rmult_0_l, double_0. replace (0 - 0) with 0 by ring. rewrite Rabs_R0. unfold u53. repeat split; lra.
  - assert (I1 : 1 <= IZR i) by (apply IZR_le; lia). assert (I2 : IZR i <= IZR b) by (apply IZR_le; lia).
    pose proof (quotient_err (IZR a) (IZR b) (IZR i) A B AB ltac:(lra) I2) as Q. unfold scale_of.
    assert (T0 : 0 <= IZR i * IZR a / IZR b) by (apply Rle_mult_inv_pos; nra).
    assert (T1 : IZR i * IZR a / IZR b <= IZR a).
    { apply Rmult_le_reg_r with (IZR b); [lra|]. unfold Rdiv. rewrite Rmult_assoc, Rinv_l by lra. nra. }
    split; [|split; [rewrite Rabs_pos_eq; lra|intros _; split; [exact T0|]]]; eapply Rle_trans; try exact Q; unfold u53; nra.
Qed.
Lemma close_half a b i : (1 <= a)%Z -> (1 <= b)%Z -> (a * b <= 4194304)%Z -> (0 <= i < b)%Z ->
  close a b ((2 * i + 1) * a - b) (double (double (double (IZR i + / 2) / scale_of a b) - / 2)).
Proof.
  intros Ha Hb Hab Hi. assert (A : 1 <= IZR a) by (apply IZR_le; lia). assert (B : 1 <= IZR b) by (apply IZR_le; lia).
  assert (AB : IZR a * IZR b <= 4194304) by (rewrite <- mult_IZR; apply IZR_le; lia).
  assert (B1 : (b <= 4194304)%Z) by nia. assert (A1 : (a <= 4194304)%Z) by nia.
  set (c := IZR i + / 2).
  assert (Ec : double c = c).
  { replace c with (IZR (2 * i + 1) / 2) by (unfold c; rewrite plus_IZR, mult_IZR; field). apply double_half. change (2 ^ 53)%Z with 9007199254740992%Z. lia. }
  rewrite Ec. set (t := c * IZR a / IZR b).
  assert (E : IZR ((2 * i + 1) * a - b) / IZR (2 * b) = t - / 2).
  { unfold t, c. rewrite minus_IZR, !mult_IZR, plus_IZR, mult_IZR. field. lra. }
  unfold close. rewrite E.
  assert (C1 : / 2 <= c) by (unfold c; pose proof (IZR_le 0 i ltac:(lia)); lra).
  assert (C2 : c <= IZR b) by (unfold c; pose proof (IZR_le (i + 1) b ltac:(lia)) as G; rewrite plus_IZR in G; lra).
  pose proof (quotient_err (IZR a) (IZR b) c A B AB C1 C2) as Q. fold t in Q. unfold scale_of. set (q := double (c / double (IZR b / IZR a))) in *.
  assert (T0 : 0 < t) by (unfold t; apply Rdiv_lt_0_compat; nra).
  assert (T1 : t <= IZR a).
  { unfold t. apply Rmult_le_reg_r with (IZR b); [lra|]. unfold Rdiv. rewrite Rmult_assoc, Rinv_l by lra. nra. }
  apply Rabs_le_inv in Q. pose proof (double_abs (q - / 2)) as D. apply Rabs_le_inv in D.
  assert (AQ : Rabs (q - / 2) <= 2 * t + / 2) by (unfold u53 in *; apply Rabs_le; lra).
  split; [unfold u53 in *; apply Rabs_le; split; nra|]. split; [apply Rabs_le; split; lra|].
  intros [h Hh]. assert (Eh : t - / 2 = IZR h / 2).
  { rewrite <- E, Hh, !mult_IZR. field. lra. }
  assert (H0 : (0 <= h)%Z). { assert (G : -1 < IZR h) by lra. change (-1) with (IZR (-1)) in G. apply lt_IZR in G. lia. }
  split; [rewrite Eh; pose proof (IZR_le 0 h H0); lra|].
  destruct (Z.eq_dec h 0) as [->|N].
  - assert (Es : IZR b / IZR a = IZR (2 * i + 1)).
    { assert (G : IZR b = IZR (2 * i + 1) * IZR a) by (rewrite <- mult_IZR; f_equal; lia). rewrite G. field. lra. }
    assert (Eq : q = / 2).
    { unfold q. rewrite Es. rewrite double_int by (change (2 ^ 52)%Z with 4503599627370496%Z; lia).
      replace (c / IZR (2 * i + 1)) with (IZR 1 / 2).
      - rewrite double_half by (cbn; lia). lra.
      - unfold c. rewrite plus_IZR, mult_IZR. pose proof (IZR_le 0 i ltac:(lia)). field. lra. }
    rewrite Eq. replace (/ 2 - / 2) with 0 by ring. rewrite double_0. rewrite Eh. unfold Rdiv. rewrite Rmult_0_l. replace (0 - 0) with 0 by ring. rewrite Rabs_R0. unfold u53. lra.
  - assert (H1 : 1 <= IZR h) by (apply IZR_le; lia).
    assert (AQ' : Rabs (q - / 2) <= 2 * t) by (unfold u53 in *; apply Rabs_le; lra).
    unfold u53 in *; apply Rabs_le; split; lra.
Qed.

Lemma multiple x : / 4 <= Rabs x -> generic_format radix2 (FLT_exp (-149) 24) x -> exists m, x = IZR m * / 33554432.
Proof.
  intros Hx H. assert (F : generic_format radix2 (FIX_exp (-25)) x).
  { revert H. apply (generic_inclusion_ge radix2 (FLT_exp (-149) 24) (FIX_exp (-25)) (-2)); [|exact Hx]. intros e He. unfold FIX_exp, FLT_exp. lia. }
  apply FIX_format_generic in F. destruct F as [f E X]. exists (Fnum f). rewrite E at 1. unfold F2R. rewrite X. reflexivity.
Qed.
(** Storing the position in a float. *)
Lemma close_float a b n d : (1 <= a)%Z -> (1 <= b)%Z -> (a * b <= 4194304)%Z -> close a b n d ->
  Rabs (float d - IZR n / IZR (2 * b)) < / IZR (2 * b) /\ ((b | n)%Z -> float d = IZR n / IZR (2 * b)).
Proof.
  intros Ha Hb Hab (H1 & H2 & H3). assert (A : 1 <= IZR a) by (apply IZR_le; lia). assert (B : 1 <= IZR b) by (apply IZR_le; lia).
  assert (AB : IZR a * IZR b <= 4194304) by (rewrite <- mult_IZR; apply IZR_le; lia).
  assert (A1 : (a <= 4194304)%Z) by nia.
  set (r := IZR n / IZR (2 * b)) in *.
  assert (Ad : Rabs d <= IZR a + 16 * u53 * IZR a).
  { replace d with ((d - r) + r) by ring. eapply Rle_trans; [apply Rabs_triang|]. lra. }
  pose proof (float_abs d) as D. split.
  - apply Rle_lt_trans with (/ 16000000 * IZR a).
    + replace (float d - r) with ((float d - d) + (d - r)) by ring. eapply Rle_trans; [apply Rabs_triang|]. unfold u53 in *. nra.
    + rewrite mult_IZR. apply Rmult_lt_reg_r with (2 * IZR b); [lra|]. rewrite Rinv_l by lra. nra.
  - intros Hd. destruct (H3 Hd) as (R0 & H4). destruct Hd as [h Hh].
    assert (Er : r = IZR h / 2) by (unfold r; rewrite Hh, !mult_IZR; field; lra).
    assert (Hh0 : 0 <= IZR h) by lra. apply le_IZR in Hh0.
    destruct (Z.eq_dec h 0) as [->|N].
    + assert (r = 0) by (rewrite Er; field). assert (d = 0).
      { assert (G : Rabs (d - r) <= 0) by (eapply Rle_trans; [exact H4|]; rewrite H; lra). apply Rabs_le_inv in G. lra. }
      subst d. rewrite float_0. congruence.
    + assert (G1 : 1 <= IZR h) by (apply IZR_le; lia).
      assert (G2 : IZR h <= 8388608). { apply Rabs_le_inv in H2. pose proof (IZR_le a 4194304 A1). lra. }
      assert (Fr : generic_format radix2 (FLT_exp (-149) 24) r).
      { rewrite Er. apply format_half; [lia|lia|]. apply le_IZR in G2. change (2 ^ 24)%Z with 16777216%Z. lia. }
      assert (M : Rabs (float d - d) <= Rabs (r - d)).
      { destruct (@round_N_pt radix2 (FLT_exp (-149) 24) (FLT_exp_valid (-149) 24 (prec_gt_0_ := eq_refl)) (fun x => negb (Z.even x)) d) as [_ X]. exact (X r Fr). }
      rewrite (Rabs_minus_sym r d) in M.
      assert (Q : Rabs (float d - r) <= 24 * u53 * r).
      { replace (float d - r) with ((float d - d) + (d - r)) by ring. eapply Rle_trans; [apply Rabs_triang|]. lra. }
      apply Rabs_le_inv in Q.
      destruct (multiple r) as [k1 E1]; [rewrite Rabs_pos_eq; lra|exact Fr|].
      destruct (multiple (float d)) as [k2 E2]; [rewrite Rabs_pos_eq; unfold u53 in *; lra|exact (nearest_format 24 (-149) eq_refl d)|].
      assert (K : IZR (k2 - k1) < 1 /\ -1 < IZR (k2 - k1)) by (rewrite minus_IZR; unfold u53 in *; lra).
      destruct K as [K1 K2]. change (-1) with (IZR (-1)) in K2. apply lt_IZR in K1, K2. assert (k2 = k1) by lia. congruence.
Qed.

(** The pixel for the position n/(2b). *)
Definition pick (nm : nmode) (n b : Z) : Z :=
  match nm with
  | NFloor => n / (2 * b)
  | NCeil => - ((- n) / (2 * b))
  | RoundPreferFloor => (- ((- n) / b)) / 2
  | RoundPreferCeil => - ((- (n / b)) / 2)
  end%Z.
Lemma zceil_half c : Zceil (IZR c / 2) = (- ((- c) / 2))%Z.
Proof. unfold Zceil. replace (- (IZR c / 2)) with (IZR (- c) / IZR 2) by (rewrite opp_IZR; field). rewrite Zfloor_div by lia. reflexivity. Qed.
Lemma pixel_ok rnd nm x n b : (0 < b)%Z -> Rabs (x - IZR n / IZR (2 * b)) < / IZR (2 * b) -> ((b | n)%Z -> x = IZR n / IZR (2 * b)) ->
  rnd (2 * x) = 2 * x -> (Z.abs n < 4503599627370496)%Z -> pixel rnd nm x = pick nm n b.
Proof.
  intros Hb H1 H2 H3 H4. assert (B : 0 < IZR b) by (apply IZR_lt; lia).
  assert (E2 : 2 * (IZR n / IZR (2 * b)) = IZR n / IZR b) by (rewrite mult_IZR; field; lra).
  destruct (floor_stable n b (2 * x)) as [F1 F2]; [lia| | |].
  - rewrite <- E2, <- Rmult_minus_distr_l, Rabs_mult, (Rabs_pos_eq 2) by lra.
    replace (/ IZR b) with (2 * / IZR (2 * b)) by (rewrite mult_IZR; field; lra). lra.
  - intros D. rewrite (H2 D). exact E2.
  - destruct (floor_stable n (2 * b) x) as [G1 G2]; [lia|exact H1|intros [k K]; apply H2; exists (2 * k)%Z; lia|].
    assert (S1 : (Z.abs (n / b) < 2 ^ 53)%Z).
    { change (2 ^ 53)%Z with 9007199254740992%Z. pose proof (Z.div_mod n b ltac:(lia)). pose proof (Z.mod_pos_bound n b Hb). nia. }
    assert (S2 : (Z.abs (- ((- n) / b)) < 2 ^ 53)%Z).
    { change (2 ^ 53)%Z with 9007199254740992%Z. pose proof (Z.div_mod (- n) b ltac:(lia)). pose proof (Z.mod_pos_bound (- n) b Hb). nia. }
    destruct nm; cbn [pixel pick]; [exact G1|exact G2| |].
    + rewrite H3, F2, double_half by exact S2. replace (IZR (- (- n / b)) / 2) with (IZR (- (- n / b)) / IZR 2) by reflexivity. rewrite Zfloor_div by lia. reflexivity.
    + rewrite H3, F1, double_half by exact S1. apply zceil_half.
Qed.
Lemma pick_nearest nm n b : (0 < b)%Z -> Resize.nearest nm (Qmake n (Z.to_pos (2 * b))) = pick nm n b.
Proof.
  intros Hb. assert (P : Z.pos (Z.to_pos (2 * b)) = (2 * b)%Z) by (apply Z2Pos.id; lia).
  assert (M : forall m, (2 * m / (2 * b))%Z = (m / b)%Z) by (intros; apply Z.div_mul_cancel_l; lia).
  destruct nm; cbn [Resize.nearest pick].
  - unfold Qfloor. rewrite P. reflexivity.
  - unfold Qceiling, Qfloor, Qopp. cbn [Qnum Qden]. rewrite P. reflexivity.
  - rewrite ResizeProofs.halve_floor. unfold Qceiling, Qfloor, Qopp, Qmult. cbn [Qnum Qden]. rewrite Pos.mul_1_l, P.
    f_equal. f_equal. replace (- (2 * n))%Z with (2 * (- n))%Z by lia. apply M.
  - rewrite ResizeProofs.halve_ceil. unfold Qfloor, Qmult. cbn [Qnum Qden]. rewrite Pos.mul_1_l, P, M. reflexivity.
Qed.

(** ** The generated code. *)
Definition numer (md : cmode) (a b i : Z) : Z := match md with Asymmetric => 2 * i * a | _ => (2 * i + 1) * a - b end%Z.
Lemma numer_small md a b i : (1 <= a)%Z -> (1 <= b)%Z -> (a * b <= 4194304)%Z -> (0 <= i < b)%Z -> (Z.abs (numer md a b i) < 4503599627370496)%Z.
Proof. intros. destruct md; cbn [numer]; nia. Qed.
Lemma float_idem x : float (float x) = float x. Proof. exact (nearest_idem 24 (-149) eq_refl x). Qed.
Lemma double_idem x : double (double x) = double x. Proof. exact (nearest_idem 53 (-1074) eq_refl x). Qed.
Lemma pixel_float a b n d nm : (1 <= a)%Z -> (1 <= b)%Z -> (a * b <= 4194304)%Z -> close a b n d -> (Z.abs n < 4503599627370496)%Z ->
  pixel float nm (float d) = pick nm n b.
Proof.
  intros Ha Hb Hab H Hn. destruct (close_float a b n d Ha Hb Hab H) as [H1 H2].
  apply pixel_ok; [lia|exact H1|exact H2| |exact Hn]. apply float_twice. apply float_idem.
Qed.
Lemma pixel_zero rnd nm : rnd 0 = 0 -> pixel rnd nm 0 = 0%Z.
Proof.
  intros H. rewrite (pixel_ok rnd nm 0 0 1); [destruct nm; reflexivity|lia| | |rewrite Rmult_0_r; exact H|lia].
  - rewrite Rdiv_0_l || unfold Rdiv; rewrite ?Rmult_0_l. rewrite Rminus_0_r, Rabs_R0. apply Rinv_0_lt_compat, IZR_lt. lia.
  - intros _. unfold Rdiv. rewrite Rmult_0_l. reflexivity.
Qed.
Lemma pixel_c_ok nm md a b i : (1 <= a)%Z -> (1 <= b)%Z -> (a * b <= 4194304)%Z -> (0 <= i < b)%Z ->
  md = HalfPixel \/ md = Asymmetric \/ (md = PytorchHalfPixel /\ (1 < b)%Z) ->
  pixel_c nm md (scale_of a b) a b i = Some (pick nm (numer md a b i) b).
Proof.
  intros Ha Hb Hab Hi Hm. pose proof (numer_small md a b i Ha Hb Hab Hi) as S. unfold pixel_c.
  destruct Hm as [->|[->|[-> H1]]]; cbn [position_c bind].
  - f_equal. apply (pixel_float a); auto. apply close_half; auto.
  - f_equal. apply (pixel_float a); auto. apply close_asymmetric; auto.
  - destruct (Z.ltb_spec 1 b); [|lia]. cbn [bind]. f_equal. apply (pixel_float a); auto. apply close_half; auto.
Qed.
Lemma pixel_c_corners a b i : (1 <= a)%Z -> (1 < b)%Z -> (a * b <= 4194304)%Z -> (0 <= i < b)%Z ->
  pixel_c NFloor AlignCorners (scale_of a b) a b i = Some (i * (a - 1) / (b - 1))%Z.
Proof.
  intros Ha Hb Hab Hi. unfold pixel_c. cbn [position_c]. destruct (Z.eqb_spec (b - 1) 0); [lia|]. cbn [bind pixel]. f_equal.
  rewrite Z.quot_div_nonneg by nia. rewrite float_int; [apply IZR_floor|]. change (2 ^ 23)%Z with 8388608%Z.
  assert (D : (i * (a - 1) / (b - 1) <= a)%Z) by (apply Z.div_le_upper_bound; nia).
  pose proof (Z.div_pos (i * (a - 1)) (b - 1) ltac:(nia) ltac:(lia)). rewrite Z.abs_eq by assumption. nia.
Qed.

(** ** Python, when the scale is exact. *)
Lemma double_quotient_exact (a b : Z) (c : R) : (1 <= a)%Z -> (1 <= b)%Z -> IZR b = scale_of a b * IZR a ->
  double (c / scale_of a b) = double (c * IZR a / IZR b).
Proof.
  intros Ha Hb E. assert (A : 1 <= IZR a) by (apply IZR_le; lia). assert (B : 1 <= IZR b) by (apply IZR_le; lia).
  f_equal. rewrite E. field. split; [lra|]. intros Z0. rewrite Z0 in E. lra.
Qed.
Lemma py_close md a b i d : (1 <= a)%Z -> (1 <= b)%Z -> (a * b <= 4194304)%Z -> (0 <= i < b)%Z -> IZR b = scale_of a b * IZR a ->
  (md = Asymmetric /\ d = double (IZR i / scale_of a b)) \/ (md <> Asymmetric /\ d = double (double (double (IZR i + / 2) / scale_of a b) - / 2)) ->
  Rabs (d - IZR (numer md a b i) / IZR (2 * b)) < / IZR (2 * b) /\ ((b | numer md a b i)%Z -> d = IZR (numer md a b i) / IZR (2 * b)).
Proof.
  intros Ha Hb Hab Hi E Hd. assert (A : 1 <= IZR a) by (apply IZR_le; lia). assert (B : 1 <= IZR b) by (apply IZR_le; lia).
  assert (AB : IZR a * IZR b <= 4194304) by (rewrite <- mult_IZR; apply IZR_le; lia).
  assert (A1 : (a <= 4194304)%Z) by nia. assert (B1 : (b <= 4194304)%Z) by nia.
  assert (K : close a b (numer md a b i) d).
  { destruct Hd as [[-> ->]|[N ->]]; [apply close_asymmetric; auto|]. destruct md; cbn [numer]; try (apply close_half; auto). congruence. }
  split.
  - destruct K as [K _]. eapply Rle_lt_trans; [exact K|]. rewrite mult_IZR. apply Rmult_lt_reg_r with (2 * IZR b); [lra|]. rewrite Rinv_l by lra. unfold u53. nra.
  - intros [h Hh]. destruct Hd as [[-> ->]|[N ->]].
    + cbn [numer] in *. rewrite double_quotient_exact by auto.
      assert (Er : IZR (2 * i * a) / IZR (2 * b) = IZR h / 2) by (rewrite Hh, !mult_IZR; field; lra).
      replace (IZR i * IZR a / IZR b) with (IZR (2 * i * a) / IZR (2 * b)) by (rewrite !mult_IZR; field; lra).
      rewrite Er. apply double_half. change (2 ^ 53)%Z with 9007199254740992%Z. nia.
    + assert (Hn : ((2 * i + 1) * a - b = h * b)%Z) by (destruct md; cbn [numer] in Hh; try lia; congruence).
      assert (Er : IZR (numer md a b i) / IZR (2 * b) = IZR h / 2) by (rewrite Hh, !mult_IZR; field; lra). rewrite Er.
      replace (IZR i + / 2) with (IZR (2 * i + 1) / 2) by (rewrite plus_IZR, mult_IZR; field).
      rewrite double_half by (change (2 ^ 53)%Z with 9007199254740992%Z; lia). rewrite double_quotient_exact by auto.
      assert (Et : IZR (2 * i + 1) / 2 * IZR a / IZR b = IZR (h + 1) / 2).
      { assert (G : IZR (2 * i + 1) * IZR a = IZR (h + 1) * IZR b) by (rewrite <- !mult_IZR; f_equal; lia).
        apply Rmult_eq_reg_r with (2 * IZR b); [|lra]. transitivity (IZR (2 * i + 1) * IZR a); [field; lra|]. rewrite G. field. }
      assert (Hs : (Z.abs h < 8388609)%Z) by nia.
      rewrite Et, double_half by (change (2 ^ 53)%Z with 9007199254740992%Z; lia).
      replace (IZR (h + 1) / 2 - / 2) with (IZR h / 2) by (rewrite plus_IZR; field). apply double_half. change (2 ^ 53)%Z with 9007199254740992%Z. lia.
Qed.
Lemma pixel_py_ok nm md a b i : (1 <= a)%Z -> (1 <= b)%Z -> (a * b <= 4194304)%Z -> (0 <= i < b)%Z -> IZR b = scale_of a b * IZR a ->
  md = HalfPixel \/ md = Asymmetric \/ (md = PytorchHalfPixel /\ (1 < b)%Z) ->
  pixel_py nm md (scale_of a b) a b i = Some (pick nm (numer md a b i) b).
Proof.
  intros Ha Hb Hab Hi E Hm. pose proof (numer_small md a b i Ha Hb Hab Hi) as S. unfold pixel_py.
  assert (G : forall d, (md = Asymmetric /\ d = double (IZR i / scale_of a b)) \/ (md <> Asymmetric /\ d = double (double (double (IZR i + / 2) / scale_of a b) - / 2)) ->
    double d = d -> pixel double nm d = pick nm (numer md a b i) b).
  { intros d Hd Hf. destruct (py_close md a b i d Ha Hb Hab Hi E Hd) as [K1 K2]. apply pixel_ok; auto; [lia|]. apply double_twice. exact Hf. }
  destruct Hm as [->|[->|[-> H1]]]; cbn [position_py bind].
  - f_equal. apply G; [right; split; [discriminate|reflexivity]|apply double_idem].
  - f_equal. apply G; [left; auto|apply double_idem].
  - destruct (Z.ltb_spec 1 b); [|lia]. cbn [bind]. f_equal. apply G; [right; split; [discriminate|reflexivity]|apply double_idem].
Qed.
Lemma pixel_py_corners a b i : (1 <= a)%Z -> (1 < b)%Z -> (a * b <= 4194304)%Z -> (0 <= i < b)%Z ->
  pixel_py NFloor AlignCorners (scale_of a b) a b i = Some (i * (a - 1) / (b - 1))%Z.
Proof.
  intros Ha Hb Hab Hi. unfold pixel_py. cbn [position_py]. destruct (Z.eqb_spec (b - 1) 0); [lia|]. cbn [bind pixel]. f_equal.
  assert (A : 1 <= IZR a) by (apply IZR_le; lia). assert (B : 1 <= IZR (b - 1)) by (apply IZR_le; lia).
  assert (AB : IZR a * (IZR (b - 1) + 1) <= 4194304).
  { rewrite <- plus_IZR, <- mult_IZR. apply IZR_le. lia. }
  set (r := IZR (i * (a - 1)) / IZR (b - 1)).
  assert (R0 : 0 <= r). { apply Rle_mult_inv_pos; [apply IZR_le; nia|lra]. }
  assert (R1 : r <= IZR a).
  { unfold r. apply Rmult_le_reg_r with (IZR (b - 1)); [lra|]. unfold Rdiv. rewrite Rmult_assoc, Rinv_l, Rmult_1_r by lra.
    rewrite <- mult_IZR. apply IZR_le. nia. }
  destruct (floor_stable (i * (a - 1)) (b - 1) (double r)) as [F _]; [lia| | |exact F].
  - fold r. eapply Rle_lt_trans; [apply double_abs|]. fold r. rewrite (Rabs_pos_eq r) by exact R0.
    apply Rmult_lt_reg_r with (IZR (b - 1)); [lra|]. rewrite Rinv_l by lra.
    assert (X1 : r * IZR (b - 1) <= 4194304) by nra. assert (X2 : IZR (b - 1) <= 4194304) by nra. unfold u53. lra.
  - intros [k Hk]. fold r. assert (Er : r = IZR k) by (unfold r; rewrite Hk, mult_IZR; field; lra). rewrite Er. apply double_int.
    rewrite Er in R0, R1. apply le_IZR in R0, R1. change (2 ^ 52)%Z with 4503599627370496%Z. nia.
Qed.

(** Rounding one given number. *)
Lemma nearest_eval prec emin x e m : (0 < prec)%Z -> (emin <= e - prec)%Z -> bpow radix2 (e - 1) <= Rabs x < bpow radix2 e ->
  Rabs (x * bpow radix2 (- (e - prec)) - IZR m) < / 2 -> FloatFormats.nearest prec emin x = IZR m * bpow radix2 (e - prec).
Proof.
  intros Hp He Hx Hm. assert (M : mag radix2 x = e :> Z) by (apply mag_unique; exact Hx).
  unfold FloatFormats.nearest, round, scaled_mantissa, cexp. rewrite M. unfold FLT_exp. rewrite Z.max_l by lia.
  unfold F2R. cbn [Fnum Fexp]. f_equal. f_equal. apply Znearest_imp. exact Hm.
Qed.
