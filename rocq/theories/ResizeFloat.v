(** * Resize layers rebuilt by the implementation selection, in binary64.
    resize/Resize.py:101-117 computes scale = output / input from the target
    size; resize_*_default_implementation (ResizeNearestDefault.py:96-120 and
    the linear and cubic ones) builds the layer that is generated from that
    scale, with int(input * scale) rows and columns.  Python floats are binary64;
    [binary_float 53 1024] is Flocq's. *)
From Coq Require Import ZArith Reals Lia Lra Psatz.
From Flocq Require Import Core BinarySingleNaN Relative.
Open Scope Z_scope.

Definition binary64 := binary_float 53 1024.
Lemma prec_ok : FLX.Prec_gt_0 53. Proof. reflexivity. Qed.
Lemma emax_ok : Prec_lt_emax 53 1024. Proof. reflexivity. Qed.
(** int -> float, nearest even. *)
Definition float_of_Z (n : Z) : binary64 := @binary_normalize 53 1024 prec_ok emax_ok mode_NE n 0 false.
Definition fdiv (x y : binary64) : binary64 := @Bdiv 53 1024 prec_ok emax_ok mode_NE x y.
Definition fmul (x y : binary64) : binary64 := @Bmult 53 1024 prec_ok emax_ok mode_NE x y.
(** int(x) *)
Definition int_of (x : binary64) : Z := Btrunc x.
Definition python_scale (isize osize : Z) : binary64 := fdiv (float_of_Z osize) (float_of_Z isize).
Definition rebuilt_size (isize osize : Z) : Z := int_of (fmul (float_of_Z isize) (python_scale isize osize)).

(** ** Proofs *)
Local Notation fexp := (SpecFloat.fexp 53 1024).
Local Notation rnd := (round radix2 fexp ZnearestE).
Local Existing Instance prec_ok.
Local Instance fexp_valid : Valid_exp fexp := FLT_exp_valid (-1074) 53.
Lemma int_format n : Z.abs n <= 2 ^ 53 -> generic_format radix2 fexp (IZR n).
Proof.
  intros Hn. change fexp with (FLT_exp (-1074) 53). destruct (Z.eq_dec (Z.abs n) (2 ^ 53)) as [E|E].
  - apply generic_format_FLT. assert (G : n = 2 ^ 53 \/ n = - 2 ^ 53) by lia.
    destruct G as [-> | ->]; [exists (Float radix2 (2 ^ 52) 1)|exists (Float radix2 (- 2 ^ 52) 1)]; try (cbn; lia).
    + unfold F2R. cbn [Fnum Fexp]. change (bpow radix2 1) with 2%R. rewrite <- (mult_IZR _ 2). reflexivity.
    + unfold F2R. cbn [Fnum Fexp]. change (bpow radix2 1) with 2%R. rewrite <- (mult_IZR _ 2). reflexivity.
  - apply generic_format_FLT. exists (Float radix2 n 0).
    + unfold F2R. cbn [Fnum Fexp bpow]. lra.
    + cbn [Fnum]. change (radix2 ^ 53) with (2 ^ 53). lia.
    + cbn. lia.
Qed.
Lemma small_lt x : (Rabs x <= IZR (2 ^ 60))%R -> Rlt_bool (Rabs (rnd x)) (bpow radix2 1024) = true.
Proof.
  intros Hx. apply Rlt_bool_true. apply Rle_lt_trans with (bpow radix2 60).
  - apply abs_round_le_generic.
    + apply fexp_valid.
    + apply valid_rnd_N.
    + apply generic_format_bpow. cbn. lia.
    + exact Hx.
  - apply bpow_lt. lia.
Qed.
Lemma float_of_Z_value n : Z.abs n <= 2 ^ 53 -> B2R (float_of_Z n) = IZR n /\ is_finite (float_of_Z n) = true.
Proof.
  intros Hn. unfold float_of_Z. pose proof (@binary_normalize_correct 53 1024 prec_ok emax_ok mode_NE n 0 false) as G. cbv zeta in G.
  replace (F2R (Float radix2 n 0)) with (IZR n) in G by (unfold F2R; cbn [Fnum Fexp bpow]; lra).
  change (round_mode mode_NE) with ZnearestE in G.
  rewrite (round_generic radix2 fexp ZnearestE (IZR n)) in G by (apply int_format; exact Hn).
  rewrite Rlt_bool_true in G.
  - destruct G as (G1 & G2 & _). auto.
  - apply Rle_lt_trans with (IZR (2 ^ 53)); [rewrite <- abs_IZR; apply IZR_le; exact Hn|].
    change (IZR (2 ^ 53)) with (bpow radix2 53). apply bpow_lt. lia.
Qed.

Section Sizes.
  Context (isize osize : Z) (Hi : 0 < isize <= 2 ^ 24) (Ho : 0 < osize <= 2 ^ 24).
  Lemma quotient_small : (0 < IZR osize / IZR isize <= IZR (2 ^ 24))%R.
  Proof.
    assert (1 <= IZR isize)%R by (apply IZR_le; lia). assert (1 <= IZR osize)%R by (apply IZR_le; lia).
    assert (IZR osize <= IZR (2 ^ 24))%R by (apply IZR_le; lia). split.
    - apply Rdiv_lt_0_compat; lra.
    - apply Rle_trans with (IZR osize); [|assumption]. unfold Rdiv. rewrite <- (Rmult_1_r (IZR osize)) at 2.
      apply Rmult_le_compat_l; [lra|]. rewrite <- Rinv_1. apply Rinv_le; lra.
  Qed.
  Lemma scale_value : B2R (python_scale isize osize) = rnd (IZR osize / IZR isize) /\ is_finite (python_scale isize osize) = true.
  Proof.
    destruct (float_of_Z_value isize ltac:(lia)) as (VI & FI). destruct (float_of_Z_value osize ltac:(lia)) as (VO & FO).
    unfold python_scale, fdiv. pose proof (@Bdiv_correct 53 1024 prec_ok emax_ok mode_NE (float_of_Z osize) (float_of_Z isize)) as G.
    rewrite VI, VO in G. specialize (G ltac:(apply IZR_neq; lia)). change (round_mode mode_NE) with ZnearestE in G.
    rewrite small_lt in G.
    - destruct G as (G1 & G2 & _). split; [exact G1|]. rewrite G2. exact FO.
    - pose proof quotient_small. rewrite Rabs_right by lra. apply Rle_trans with (IZR (2 ^ 24)); [lra|apply IZR_le; lia].
  Qed.
  Lemma rnd_bounds x e : (0 <= x)%R -> (x <= bpow radix2 e)%R -> -1000 < e -> (0 <= rnd x <= bpow radix2 e)%R.
  Proof.
    intros H0 H1 He. split.
    - rewrite <- (round_0 radix2 fexp ZnearestE). apply round_le; auto with typeclass_instances.
    - apply round_le_generic; auto with typeclass_instances. apply generic_format_bpow. unfold SpecFloat.fexp, SpecFloat.emin. lia.
  Qed.
  Lemma product_value : B2R (fmul (float_of_Z isize) (python_scale isize osize)) = rnd (IZR isize * rnd (IZR osize / IZR isize)).
  Proof.
    destruct (float_of_Z_value isize ltac:(lia)) as (VI & FI). destruct scale_value as (VS & FS).
    unfold fmul. pose proof (@Bmult_correct 53 1024 prec_ok emax_ok mode_NE (float_of_Z isize) (python_scale isize osize)) as G.
    rewrite VI, VS in G. change (round_mode mode_NE) with ZnearestE in G. rewrite small_lt in G.
    - destruct G as (G1 & _). exact G1.
    - pose proof quotient_small as (Q1 & Q2). destruct (rnd_bounds (IZR osize / IZR isize) 24) as (R1 & R2); [lra|exact Q2|lia|].
      assert (1 <= IZR isize <= IZR (2 ^ 24))%R by (split; apply IZR_le; lia).
      rewrite Rabs_right by (apply Rle_ge, Rmult_le_pos; lra).
      apply Rle_trans with (IZR (2 ^ 24) * IZR (2 ^ 24))%R.
      + apply Rmult_le_compat; lra || (change (IZR (2 ^ 24)) with (bpow radix2 24); exact R2).
      + rewrite <- mult_IZR. apply IZR_le. lia.
  Qed.
  Lemma rebuilt_value : rebuilt_size isize osize = Ztrunc (rnd (IZR isize * rnd (IZR osize / IZR isize))).
  Proof.
    unfold rebuilt_size, int_of. rewrite <- product_value. apply eq_IZR. rewrite Btrunc_correct. 
    unfold round, scaled_mantissa, F2R, cexp, FIX_exp. cbn [Fnum Fexp bpow Z.opp]. rewrite !Rmult_1_r. reflexivity.
    all: reflexivity.
  Qed.
  (** A scale that is a multiple of a small power of two is exact. *)
  Lemma rebuilt_exact s m : 0 <= s <= 20 -> osize * 2 ^ s = m * isize -> rebuilt_size isize osize = osize.
  Proof.
    intros Hs E.
    assert (P2 : 0 < 2 ^ s <= 2 ^ 20) by (split; [lia|apply Z.pow_le_mono_r; lia]).
    assert (Hm : 0 < m <= 2 ^ 44) by nia.
    assert (EQ : (IZR osize / IZR isize = F2R (Float radix2 m (- s)))%R).
    { unfold F2R. cbn [Fnum Fexp]. rewrite bpow_opp, <- IZR_Zpower by lia.
      assert (IZR isize <> 0)%R by (apply IZR_neq; lia). assert (IZR (radix2 ^ s) <> 0)%R by (apply IZR_neq; change (radix2 ^ s) with (2 ^ s); lia).
      apply (Rmult_eq_reg_r (IZR isize * IZR (radix2 ^ s))%R).
      - field_simplify; [|auto..]. rewrite <- !mult_IZR. f_equal. change (radix2 ^ s) with (2 ^ s). lia.
      - apply Rmult_integral_contrapositive. auto. }
    assert (EX : rnd (IZR osize / IZR isize) = (IZR osize / IZR isize)%R).
    { apply round_generic; auto with typeclass_instances. change fexp with (FLT_exp (-1074) 53). apply generic_format_FLT.
      exists (Float radix2 m (- s)); [exact EQ|cbn [Fnum]; change (radix2 ^ 53) with (2 ^ 53); lia|cbn [Fexp]; lia]. }
    rewrite rebuilt_value, EX.
    replace (IZR isize * (IZR osize / IZR isize))%R with (IZR osize) by (field; apply IZR_neq; lia).
    rewrite round_generic; [apply Ztrunc_IZR|auto with typeclass_instances|apply int_format; lia].
  Qed.
  (** In general one row or column may be lost. *)
  Lemma rebuilt_close : rebuilt_size isize osize = osize \/ rebuilt_size isize osize = osize - 1.
  Proof.
    rewrite rebuilt_value. pose proof quotient_small as (Q1 & Q2).
    assert (I1 : (1 <= IZR isize <= IZR (2 ^ 24))%R) by (split; apply IZR_le; lia).
    assert (O1 : (1 <= IZR osize <= IZR (2 ^ 24))%R) by (split; apply IZR_le; lia).
    set (q := (IZR osize / IZR isize)%R) in *.
    assert (REL : forall x, (bpow radix2 (-100) <= x)%R -> exists e, (Rabs e <= / 2 ^ 53)%R /\ (rnd x = x * (1 + e))%R).
    { intros x Hx. destruct (relative_error_N_FLT_ex radix2 (-1074) 53 ltac:(reflexivity) (fun z => negb (Z.even z)) x) as (e & He & Ee).
      - apply Rle_trans with (bpow radix2 (-100)); [apply bpow_le; lia|]. rewrite Rabs_right; [exact Hx|].
        pose proof (bpow_gt_0 radix2 (-100)). lra.
      - exists e. split; [|exact Ee]. eapply Rle_trans; [exact He|]. cbn. lra. }
    assert (QL : (bpow radix2 (-100) <= q)%R).
    { apply Rle_trans with (bpow radix2 (-24)); [apply bpow_le; lia|]. change (bpow radix2 (-24)) with (/ IZR (2 ^ 24))%R. unfold q, Rdiv. rewrite <- (Rmult_1_l (/ IZR (2 ^ 24))).
      apply Rmult_le_compat; [lra|left; apply Rinv_0_lt_compat; apply IZR_lt; lia|lra|apply Rinv_le; lra]. }
    destruct (REL q QL) as (e1 & H1 & E1). rewrite E1.
    assert (EI : (IZR isize * (q * (1 + e1)) = IZR osize * (1 + e1))%R) by (unfold q; field; apply IZR_neq; lia).
    rewrite EI.
    assert (T53 : (0 < / 2 ^ 53 <= / 1000000000000000)%R) by (split; [apply Rinv_0_lt_compat; lra|apply Rinv_le; lra]).
    assert (A1 : (- / 2 ^ 53 <= e1 <= / 2 ^ 53)%R) by (apply Rabs_le_inv; exact H1).
    assert (PL : (bpow radix2 (-100) <= IZR osize * (1 + e1))%R).
    { apply Rle_trans with (bpow radix2 (-1)); [apply bpow_le; lia|]. change (bpow radix2 (-1)) with (/ 2)%R. nra. }
    destruct (REL _ PL) as (e2 & H2 & E2). rewrite E2.
    assert (A2 : (- / 2 ^ 53 <= e2 <= / 2 ^ 53)%R) by (apply Rabs_le_inv; exact H2).
    change (IZR (2 ^ 24)) with 16777216%R in *. set (d := (/ 1000000000000000)%R) in *.
    assert (D : (0 < d <= / 1000000000)%R) by (unfold d; lra).
    assert (M : (IZR osize - 1 < IZR osize * (1 + e1) * (1 + e2) < IZR osize + 1)%R).
    { assert (B1 : (- d <= e1 <= d)%R) by lra. assert (B2 : (- d <= e2 <= d)%R) by lra.
      assert (B3 : (- (3 * d) <= (1 + e1) * (1 + e2) - 1 <= 3 * d)%R) by nra.
      set (t := ((1 + e1) * (1 + e2) - 1)%R) in *. replace (IZR osize * (1 + e1) * (1 + e2))%R with (IZR osize + IZR osize * t)%R by (unfold t; ring).
      assert (Rabs (IZR osize * t) < 1)%R; [|split; apply Rabs_def2 in H; lra].
      rewrite Rabs_mult. rewrite (Rabs_right (IZR osize)) by lra. assert (Rabs t <= 3 * d)%R by (apply Rabs_le; lra).
      apply Rle_lt_trans with (16777216 * (3 * d))%R; [apply Rmult_le_compat; try lra; apply Rabs_pos|lra]. }
    rewrite Ztrunc_floor by (assert (0 <= IZR osize - 1)%R by lra; lra).
    destruct (Rle_lt_dec (IZR osize) (IZR osize * (1 + e1) * (1 + e2))) as [L|L].
    - left. apply Zfloor_imp. rewrite plus_IZR. lra.
    - right. apply Zfloor_imp. replace (osize - 1 + 1) with osize by lia. rewrite minus_IZR. lra.
  Qed.
End Sizes.
